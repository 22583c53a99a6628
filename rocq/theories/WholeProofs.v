(** * Proofs: the example program complete.cpp, key by key and byte by byte *)

From Verif Require Import Base SplitModel SplitSpec SplitProofs FromStringModel FromStringSpec FromStringProofs PrefixSpec PrefixModel PrefixProofs HistoryModel HistorySpec HistoryProofs StorageModel StorageSpec StorageProofs
  TerminalModel TerminalSpec TerminalProofs MenuModel SessionModel SessionSpec CompletionModel CompletionSpec ProcessorModel ProcessorSpec ProcessorProofs TelnetModel ServerModel ServerSpec ServerProofs
  WireModel AcceptSpec WireSpec WireProofs ExampleSpec ExampleProofs CompleteModel CompleteSpec CompleteProofs WholeModel WholeSpec WholeDeskProofs.
Open Scope nat_scope.
Open Scope list_scope.

(** ** The terminal *)
Lemma esc_sgr n : sgr n = escape (string_of_list_ascii (print_N n ++ ["m"%char])).
Proof. unfold sgr, escape, lit. rewrite list_ascii_of_string_of_list_ascii. reflexivity. Qed.
Lemma before_esc c f : before_input c f = (if c then escape "97m" else [], c || f).
Proof. destruct c; reflexivity. Qed.
Lemma before_prompt_esc c f : before_prompt c f = (if c then escape "32m" ++ escape "1m" else [], c || f).
Proof. destruct c; reflexivity. Qed.
Lemma after_esc t f : after_input t f = if f || t then escape "0m" else [].
Proof. reflexivity. Qed.
Lemma after_prompt_esc t f : after_prompt t f = if f || t then escape "0m" else [].
Proof. reflexivity. Qed.

Lemma tail_hold e : tail_from (length (before e)) (ed_text e) = Some (TerminalSpec.after e).
Proof.
  unfold tail_from, ed_text. rewrite app_length, rev_length. replace (Nat.leb _ _) with true by (symmetry; apply Nat.leb_le; lia).
  rewrite <- (rev_length (before e)), skipn_app, skipn_all, Nat.sub_diag. reflexivity.
Qed.
Lemma firstn_hold l (r : str) : firstn (length l) (rev l ++ r) = rev l.
Proof. rewrite <- (rev_length l), firstn_app, firstn_all, Nat.sub_diag. cbn. apply app_nil_r. Qed.
Lemma skipn_hold l (r : str) : skipn (length l) (rev l ++ r) = r.
Proof. rewrite <- (rev_length l), skipn_app, skipn_all, Nat.sub_diag. reflexivity. Qed.

(** Keys that edit the line *)
Lemma edit_key tty c k t e marks : holds t e -> editing k = true -> marks = tm_force t || tty ->
  exists t', keypressed tty c k t = Some (echo c marks k e, SyNothing, t') /\ holds t' (ed_key k e) /\
    tm_force t' || tty = marks || inks k e && c.
Proof.
  intros (Hl & Hp) Hk ->. destruct e as [l r]. unfold ed_text in Hl. cbn [before TerminalSpec.after] in *. destruct t as [line pos f]. cbn [tm_line tm_pos tm_force] in *. subst line pos.
  assert (Hff : forall f', f' = c || f -> f' || tty = f || tty || true && c) by (intros f' ->; destruct c, f, tty; reflexivity).
  destruct k; cbn [editing] in Hk; try discriminate; cbn [keypressed tm_line tm_pos tm_force ed_key inks before TerminalSpec.after].
  - apply negb_true_iff in Hk. rewrite Hk, before_esc.
    unfold tail_from, size_sub, insert_at. rewrite app_length, rev_length. replace (Nat.leb (length l) (length l + length r)) with true by (symmetry; apply Nat.leb_le; lia).
    cbn [obind]. rewrite skipn_hold, firstn_hold, after_esc. eexists. split; [|split].
    + unfold echo, tinted, back, backs. cbn [before TerminalSpec.after]. replace (length l + length r - length l) with (length r) by lia.
      replace ((c || f) || tty) with (f || tty || c) by (destruct c, f, tty; reflexivity). cbn [app]. rewrite <- !app_assoc. cbn [app]. rewrite <- app_assoc. reflexivity.
    + split; cbn [tm_line tm_pos before length]; [|lia]. unfold ed_text. cbn [before TerminalSpec.after rev]. rewrite <- app_assoc. reflexivity.
    + cbn [tm_force]. apply Hff. reflexivity.
  - destruct l as [|x l].
    + cbn. eexists. split; [reflexivity|]. split; [split; reflexivity|]. destruct c, f, tty; reflexivity.
    + cbn [length Nat.ltb Nat.leb]. replace (S (length l) - 1) with (length l) by lia. eexists. split; [reflexivity|]. split; [split; [|reflexivity]|cbn; destruct c, f, tty; reflexivity].
      cbn [tm_line]. unfold ed_text. cbn [before TerminalSpec.after rev]. rewrite <- app_assoc. reflexivity.
  - destruct r as [|x r].
    + rewrite app_nil_r, rev_length, Nat.ltb_irrefl. eexists. split; [unfold echo; cbn [before TerminalSpec.after]; destruct l; reflexivity|]. split; [split; [unfold ed_text; cbn; rewrite app_nil_r|]; reflexivity|]. cbn. destruct c, f, tty; reflexivity.
    + replace (Nat.ltb (length l) (length (rev l ++ x :: r))) with true by (symmetry; apply Nat.ltb_lt; rewrite app_length, rev_length; cbn [length]; lia).
      rewrite before_esc. rewrite nth_error_app2 by (rewrite rev_length; lia). rewrite rev_length, Nat.sub_diag. cbn [nth_error obind]. rewrite after_esc. eexists. split; [|split].
      * unfold echo, tinted. cbn [before TerminalSpec.after]. replace ((c || f) || tty) with (f || tty || c) by (destruct c, f, tty; reflexivity). destruct l; reflexivity.
      * split; [|cbn; lia]. cbn [tm_line]. unfold ed_text. cbn [before TerminalSpec.after rev]. rewrite <- app_assoc. reflexivity.
      * cbn [tm_force]. apply Hff. reflexivity.
  - destruct l as [|x l].
    + cbn. eexists. split; [reflexivity|]. split; [split; reflexivity|]. destruct c, f, tty; reflexivity.
    + cbn [length Nat.eqb rev]. replace (S (length l) - 1) with (length l) by lia. rewrite <- app_assoc. cbn [app].
      unfold erase_at, tail_from, size_sub. rewrite !app_length, rev_length. cbn [length]. replace (Nat.ltb (length l) (length l + S (length r))) with true by (symmetry; apply Nat.ltb_lt; lia).
      cbn [obind]. rewrite firstn_hold. change (skipn (S (length l)) (rev l ++ x :: r)) with (skipn (1 + length l) (rev l ++ x :: r)).
      assert (Hs : skipn (1 + length l) (rev l ++ x :: r) = r) by (replace (1 + length l) with (length (x :: l)) by reflexivity; replace (rev l ++ x :: r) with (rev (x :: l) ++ r) by (cbn [rev]; rewrite <- app_assoc; reflexivity); apply skipn_hold).
      rewrite Hs, !app_length, rev_length. replace (Nat.leb (length l) (length l + length r)) with true by (symmetry; apply Nat.leb_le; lia). cbn [obind]. rewrite skipn_hold.
      eexists. split; [|split].
      * unfold echo, back, backs. cbn [before TerminalSpec.after]. replace (length l + length r - length l + 1) with (S (length r)) by lia. reflexivity.
      * split; [reflexivity|cbn; reflexivity].
      * cbn. destruct c, f, tty; reflexivity.
  - destruct r as [|x r].
    + rewrite app_nil_r, rev_length, Nat.eqb_refl. eexists. split; [unfold echo; cbn [before TerminalSpec.after]; destruct l; reflexivity|]. cbn [tl]. split; [split; [unfold ed_text; cbn; rewrite app_nil_r|]; reflexivity|]. cbn. destruct c, f, tty; reflexivity.
    + replace (Nat.eqb (length l) (length (rev l ++ x :: r))) with false by (symmetry; apply Nat.eqb_neq; rewrite app_length, rev_length; cbn [length]; lia).
      unfold tail_from, size_sub, erase_at. rewrite !app_length, rev_length. cbn [length].
      replace (Nat.leb (length l + 1) (length l + S (length r))) with true by (symmetry; apply Nat.leb_le; lia).
      replace (Nat.leb (length l) (length l + S (length r))) with true by (symmetry; apply Nat.leb_le; lia).
      replace (Nat.ltb (length l) (length l + S (length r))) with true by (symmetry; apply Nat.ltb_lt; lia). cbn [obind].
      assert (Hs : skipn (S (length l)) (rev l ++ x :: r) = r) by (replace (S (length l)) with (length (x :: l)) by reflexivity; replace (rev l ++ x :: r) with (rev (x :: l) ++ r) by (cbn [rev]; rewrite <- app_assoc; reflexivity); apply skipn_hold).
      rewrite Nat.add_1_r, Hs, firstn_hold. eexists. split; [|split].
      * unfold echo, back, backs. cbn [before TerminalSpec.after]. replace (length l + S (length r) - length l) with (S (length r)) by lia. destruct l; reflexivity.
      * split; reflexivity.
      * cbn. destruct c, f, tty; reflexivity.
  - eexists. split; [|split].
    + unfold echo, back, backs. cbn [before TerminalSpec.after]. destruct l; reflexivity.
    + split; reflexivity.
    + cbn. destruct c, f, tty; reflexivity.
  - rewrite before_esc. unfold tail_from. rewrite app_length, rev_length. replace (Nat.leb (length l) (length l + length r)) with true by (symmetry; apply Nat.leb_le; lia).
    cbn [obind]. rewrite skipn_hold, after_esc. eexists. split; [|split].
    + unfold echo, tinted. cbn [before TerminalSpec.after]. replace ((c || f) || tty) with (f || tty || c) by (destruct c, f, tty; reflexivity). destruct l; reflexivity.
    + split; cbn [tm_line tm_pos before].
      * unfold ed_text. cbn [before TerminalSpec.after]. rewrite rev_involutive, app_nil_r. reflexivity.
      * unfold ed_text. cbn [before TerminalSpec.after]. rewrite rev_length, app_length, rev_length. reflexivity.
    + cbn [tm_force]. apply Hff. reflexivity.
  - eexists. split; [unfold echo; cbn [before TerminalSpec.after]; reflexivity|]. split; [split; reflexivity|]. cbn. destruct c, f, tty; reflexivity.
Qed.

(** The line is replaced *)
Lemma swap_line tty c s t e marks : holds t e -> marks = tm_force t || tty -> exists t',
  set_line tty c s t = (swapped c marks s e, t') /\ holds t' (ended s) /\ tm_force t' || tty = marks || c.
Proof.
  intros (Hl & Hp) ->. unfold set_line. rewrite before_esc, after_esc, Hl, Hp. eexists. split; [|split].
  - f_equal. unfold swapped, tinted, back, backs, blanks. rewrite <- !app_assoc. replace ((c || tm_force t) || tty) with (tm_force t || tty || c) by (destruct c, (tm_force t), tty; reflexivity).
    destruct (Nat.ltb_spec (length s) (length (ed_text e))); [reflexivity|]. replace (length (ed_text e) - length s) with 0 by lia. cbn [repeat]. rewrite !app_nil_r. reflexivity.
  - split; cbn [tm_line tm_pos ended]; unfold ended, ed_text; cbn [before TerminalSpec.after]; [rewrite rev_involutive, app_nil_r; reflexivity|rewrite rev_length; reflexivity].
  - cbn [tm_force]. destruct c, (tm_force t), tty; reflexivity.
Qed.
Lemma ended_text s : ed_text (ended s) = s.
Proof. unfold ended, ed_text. cbn [before TerminalSpec.after]. rewrite rev_involutive, app_nil_r. reflexivity. Qed.

(** ** Lists of events *)
Definition gone (i : nat) (tr : list event) : bool :=
  existsb (fun e => match e with EvHook j KSesExit _ => Nat.eqb j i | _ => false end) tr.
Lemma gone_app i a b : gone i (a ++ b) = gone i a || gone i b.
Proof. apply existsb_app. Qed.
Lemma stopped_gone tr : stopped tr = gone 0 tr.
Proof. unfold stopped, gone. induction tr as [|e tr IH]; [reflexivity|]. cbn [existsb]. rewrite IH. destruct e as [| | |[|i] [] a| |]; reflexivity. Qed.
Lemma gone_exit i evs : existsb exit_hook evs = false -> gone i evs = false.
Proof.
  induction evs as [|e evs IH]; intros H; [reflexivity|]. cbn [existsb gone] in *. apply orb_false_iff in H as (H1 & H2). fold (gone i evs). rewrite (IH H2).
  destruct e as [| | |j [] a| |]; try reflexivity. discriminate.
Qed.
Lemma gone_only i j evs : i <> j -> (forall e, In e evs -> exit_hook e = true -> exists a, e = EvHook i KSesExit a) -> gone j evs = false.
Proof.
  intros Hne H. unfold gone. induction evs as [|e evs IH]; [reflexivity|]. cbn [existsb]. rewrite IH by (intros e' He; apply H; right; exact He).
  destruct e as [| | |k [] a| |]; try reflexivity. destruct (H _ (or_introl eq_refl) eq_refl) as (a' & Ha). injection Ha as -> _. destruct (Nat.eqb_spec i j); [contradiction|reflexivity].
Qed.
Lemma audible_user j evs : for_all evs = [] -> audible j evs = for_user j evs.
Proof.
  unfold for_all, audible, for_user. induction evs as [|e evs IH]; intros H; [reflexivity|]. cbn [flat_map] in *. apply app_eq_nil in H as (H1 & H2). rewrite (IH H2).
  destruct e; try reflexivity. rewrite H1. reflexivity.
Qed.
Lemma audible_all j evs : for_user j evs = [] -> audible j evs = for_all evs.
Proof.
  unfold for_all, audible, for_user. induction evs as [|e evs IH]; intros H; [reflexivity|]. cbn [flat_map] in *. apply app_eq_nil in H as (H1 & H2). rewrite (IH H2).
  destruct e; try reflexivity. rewrite H1. reflexivity.
Qed.
Lemma for_user_app j a b : for_user j (a ++ b) = for_user j a ++ for_user j b.
Proof. apply flat_map_app. Qed.
Lemma for_all_app a b : for_all (a ++ b) = for_all a ++ for_all b.
Proof. apply flat_map_app. Qed.

Lemma answers_one complex pc local size c g u line r : answers complex pc local size c g u line r ->
  match r with Reply own all _ _ _ _ => own = [] \/ all = [] | Broken => True end.
Proof.
  intros H. induction H; try exact Logic.I; try (right; reflexivity); [assumption|].
  destruct e as [t|t|what|p|[]| |]; cbn [replied]; auto.
Qed.

(** ** One user *)
Section Whole.
Context (P : platform) (rc : str -> option (Z * str)) (pc : Z -> str) (net : nat -> list event -> bool) (fuel : nat) (tty : bool).
Hypothesis Hstrict : strict P = false.
Hypothesis Hnet : forall i tr, net i tr = true.
Notation E := (cx_env P rc pc).
Notation F := fuel.
Notation env_of := (env_of P rc pc net).
Notation tty_of := (tty_of tty).
Notation fine := (fun l => readable P l /\ one_line l).
Notation uok := (uok P).
Notation size i := (room (Nat.eqb i 0)).

Lemma closed_gone i tr : closed E net i tr = gone i tr.
Proof.
  unfold closed, gone. cbn [e_has cx_env andb]. generalize (@nil event). induction tr as [|e tr IH]; intros seen; [reflexivity|]. cbn [closed_in existsb].
  rewrite IH. f_equal. destruct e as [| | |j [] a| |]; try reflexivity. rewrite Hnet. destruct (Nat.eqb j i); reflexivity.
Qed.
Lemma closed_in_gone i seen tr : closed_in E net i seen tr = gone i tr.
Proof.
  unfold gone. revert seen. induction tr as [|e tr IH]; intros seen; [reflexivity|]. cbn [closed_in existsb].
  rewrite IH. f_equal. destruct e as [| | |j [] a| |]; try reflexivity. rewrite Hnet. destruct (Nat.eqb j i); reflexivity.
Qed.

(** Texts that can be typed *)
Definition good (s : str) : Prop := readable P s /\ one_line s.
Definition goodc (c : ascii) : Prop := c <> "010"%char /\ readable P [c].
Lemma good_chars s : good s <-> Forall goodc s.
Proof.
  unfold good, goodc, one_line, readable, plain. split.
  - intros (H1 & H2). apply Forall_forall. intros c Hc. split; [intros ->; contradiction|]. destruct H1 as [H1|H1]; [left; exact H1|]. right.
    constructor; [|constructor]. rewrite Forall_forall in H1. apply H1, Hc.
  - intros H. rewrite Forall_forall in H. split; [|intros Hc; destruct (H _ Hc) as (H' & _); contradiction].
    destruct (char_signed P) eqn:Hs; [|left; reflexivity]. right. apply Forall_forall. intros c Hc. destruct (H _ Hc) as (_ & [Hx|Hx]); [discriminate|]. inversion Hx. assumption.
Qed.
Lemma good_edit k e : good (ed_text e) -> ok_key P k -> editing k = true -> good (ed_text (ed_key k e)).
Proof.
  rewrite !good_chars. destruct e as [l r]. unfold ed_text. cbn [before TerminalSpec.after]. intros H Hk He. apply Forall_app in H as (Hl & Hr).
  assert (Hl' : Forall goodc l) by (rewrite <- (rev_involutive l); apply Forall_rev, Hl).
  destruct k; cbn [ed_key before TerminalSpec.after ok_key editing] in *; try discriminate.
  - apply negb_true_iff in He. rewrite He. cbn [before TerminalSpec.after rev]. rewrite <- app_assoc. apply Forall_app. split; [exact Hl|].
    constructor; [|exact Hr]. destruct Hk as (H1 & H2). split; assumption.
  - destruct l as [|x l]; cbn [before TerminalSpec.after]; apply Forall_app; [split; assumption|]. inversion Hl'; subst. split; [apply Forall_rev; assumption|constructor; assumption].
  - destruct r as [|x r]; cbn [before TerminalSpec.after]; apply Forall_app; [split; assumption|]. inversion Hr; subst. split; [apply Forall_rev; constructor; assumption|assumption].
  - destruct l as [|x l]; cbn [before TerminalSpec.after]; apply Forall_app; [split; assumption|]. inversion Hl'; subst. split; [apply Forall_rev; assumption|assumption].
  - destruct r as [|x r]; cbn [before TerminalSpec.after]; apply Forall_app; [split; assumption|]. inversion Hr; subst. split; assumption.
  - cbn. apply Forall_app. split; assumption.
  - rewrite rev_involutive. apply Forall_app. split; [apply Forall_app; split; assumption|constructor].
  - apply Forall_app. split; assumption.
Qed.

Lemma good_ascii s : Forall ascii_char s -> good s.
Proof. intros H. apply good_chars. eapply Forall_impl; [|exact H]. intros c (H1 & H2). split; [exact H1|]. right. constructor; [exact H2|constructor]. Qed.

Lemma blank_dec line : words line [] \/ ~ words line [].
Proof.
  destruct (split line) as [ws|] eqn:Hs; [|destruct (split_safe line) as (? & H & _); congruence].
  destruct ws as [|w ws]; [left; apply words_split, Hs|right]. intros H. apply words_split in H. congruence.
Qed.

(** *** Handling a key *)
Definition ext (evs : list event) (w : world) : world :=
  mkWorld (w_root w) (w_next w) (w_store w) (w_sid w) (w_cur w) (w_hist w) (w_exit w) (w_trace w ++ evs).
Lemma ext_ext a b w : ext a (ext b w) = ext (b ++ a) w.
Proof. unfold ext. cbn. rewrite <- app_assoc. reflexivity. Qed.
Lemma out_ext s w : out s w = ext [EvOut (w_sid w) s] w.
Proof. reflexivity. Qed.
Lemma log_ext e w : log e w = ext [e] w.
Proof. reflexivity. Qed.

Lemma prompt_at t c force c0 g u w : at_place c0 g u w ->
  prompt t c force w = Some (if w_exit w then [] else prompt_shown c (force || t) (u_place u), if w_exit w then force else c || force).
Proof.
  intros (Hr & Hc). unfold prompt. destruct (w_exit w); [reflexivity|]. unfold prompt_text. rewrite Hr, Hc, clocated.
  rewrite before_prompt_esc. rewrite after_prompt_esc. unfold prompt_shown. f_equal. f_equal.
  replace ((c || force) || t) with (force || t || c) by (destruct c, force, t; reflexivity).
  destruct (u_place u); reflexivity.
Qed.
Definition draft_ok (page : option (str * nat)) : Prop := match page with Some (t, _) => good t | None => True end.
Definition desk_at (i : nat) (c g : bool) (u : user) (d : desk) (late : bool) (p : proc) : Prop :=
  w_sid (p_world p) = i /\ (at_place c g u (p_world p) /\ w_hist (p_world p) = hist_at (size i) u (d_page d) /\ page_ok (size i) u (d_page d) /\ draft_ok (d_page d)) /\
  uok (size i) u /\ (holds (p_term p) (d_line d) /\ d_marks d = tm_force (p_term p) || tty_of i) /\ good (ed_text (d_line d)) /\
  w_exit (p_world p) = late /\ gone i (w_trace (p_world p)) = late /\ (late = true -> i <> 0).
(** The remembered lines are changed, and something is printed. *)
Definition adj (h : history) (evs : list event) (w : world) : world :=
  mkWorld (w_root w) (w_next w) (w_store w) (w_sid w) (w_cur w) h (w_exit w) (w_trace w ++ evs).
Definition pressed (i n : nat) (c g : bool) (k : key) (u : user) (d : desk) (late : bool) (p : proc) : Prop :=
  exists said u' d' t' texts_, adjusts c g (size i) k u d said u' d' /\
    press (env_of i) n (tty_of i) (mkStroke k c c) p = POk (mkProc (adj (hist_at (size i) u' (d_page d')) (map (EvOut i) texts_) (p_world p)) t') /\
    (late = false -> concat texts_ = said) /\ holds t' (d_line d') /\ d_marks d' = tm_force t' || tty_of i /\ good (ed_text (d_line d')) /\
    uok (size i) u' /\ page_ok (size i) u' (d_page d') /\ draft_ok (d_page d') /\ u_place u' = u_place u.

Lemma press_edit i n c g u d late p k : desk_at i c g u d late p -> ok_key P k -> editing k = true -> pressed i n c g k u d late p.
Proof.
  intros (Hi & (Hat & Hh & Hpg & Hdr) & Hu & (Hho & Hm) & Hg & _) Hok Hk. destruct d as [e m pg]. cbn [d_line d_marks d_page] in *.
  destruct (edit_key (tty_of i) c k (p_term p) e _ Hho Hk Hm) as (t' & Ht & H1 & H2). do 2 eexists. eexists. exists t', [echo c m k e]. split; [apply j_edits, Hk|]. cbn [d_line d_marks d_page].
  split; [|split; [intros _; cbn [concat]; apply app_nil_r|]].
  - unfold press. cbn [ks_color ks_key ks_color']. rewrite Ht. cbn [process]. unfold p_out, out, log, adj. cbn [p_world p_term map]. rewrite Hi, Hh. reflexivity.
  - repeat (split; [first [assumption|symmetry; assumption|apply good_edit; assumption]|]). reflexivity.
Qed.
Lemma redraw i c g u d late p w0 evs : desk_at i c g u d late p -> w0 = ext (map (EvOut i) evs) (p_world p) -> exists t',
  p_bind (p_prompt (tty_of i) c (mkProc w0 (p_term p))) (fun p1 => POk (p_set_line (tty_of i) c (ed_text (d_line d)) (p_reset_cursor p1))) =
  POk (mkProc (ext (map (EvOut i) (evs ++ [if late then [] else prompt_shown c (d_marks d) (u_place u); tinted c (d_marks d) (ed_text (d_line d))])) (p_world p)) t') /\
  holds t' (ended (ed_text (d_line d))) /\ d_marks d || c = tm_force t' || tty_of i.
Proof.
  intros (Hi & (Hat & Hh & Hpg & Hdr) & Hu & ((Hho1 & Hho2) & Hm) & Hg & Hx & _) ->. unfold p_prompt. cbn [p_world p_term].
  rewrite (prompt_at (tty_of i) c (tm_force (p_term p)) c g u) by exact Hat. cbn [ext w_exit]. rewrite Hx. cbn [p_bind].
  unfold p_set_line, p_reset_cursor, reset_cursor, set_line. cbn [p_out p_world p_term tm_line tm_pos tm_force].
  rewrite before_esc, after_esc, Hho1, Nat.ltb_irrefl. unfold p_out. cbn [p_world p_term]. rewrite !out_ext. unfold ext. cbn [w_root w_next w_store w_sid w_cur w_hist w_exit w_trace]. rewrite Hi.
  eexists. split; [|split].
  - f_equal. rewrite map_app, <- !app_assoc. cbn [app backs repeat map]. f_equal. unfold tinted. rewrite Hm. do 5 f_equal.
    repeat f_equal. destruct late, c, (tm_force (p_term p)), (tty_of i); reflexivity.
  - split; cbn [tm_line tm_pos]; [rewrite ended_text; reflexivity|]. unfold ended. cbn [before]. rewrite rev_length. reflexivity.
  - cbn [tm_force]. rewrite Hm. destruct late, c, (tm_force (p_term p)), (tty_of i); reflexivity.
Qed.
Lemma press_clear i n c g u d late p : desk_at i c g u d late p -> pressed i n c g KClear u d late p.
Proof.
  intros H. pose proof H as (Hi & (Hat & Hh & Hpg & Hdr) & Hu & (Hho & Hm) & Hg & Hx & _).
  destruct (redraw i c g u d late p _ [[]; escape "H" ++ escape "J"] H eq_refl) as (t' & Hr & Ht & Hf). destruct d as [e m pg]. cbn [d_line d_marks d_page] in *.
  do 2 eexists. eexists. exists t'. eexists. split; [apply j_clears|]. cbn [d_line d_marks d_page]. split; [|split].
  - unfold press. cbn [keypressed ks_color ks_key ks_color' process p_out p_world p_term]. unfold get_line. cbn [p_term]. destruct Hho as (Hl & _). rewrite Hl.
    match type of Hr with p_bind (p_prompt _ _ (mkProc ?w _)) _ = _ => match goal with |- p_bind (p_prompt _ _ ?q) _ = _ => replace q with (mkProc w (p_term p)) end end.
    + rewrite Hr. unfold adj, ext. rewrite Hh. reflexivity.
    + unfold p_out, out, log, ext. cbn [p_world p_term w_root w_next w_store w_sid w_cur w_hist w_exit w_trace map]. rewrite Hi, <- app_assoc. reflexivity.
  - intros ->. cbn [app concat]. unfold redrawn. rewrite app_nil_r. reflexivity.
  - rewrite ended_text. auto 10.
Qed.
Lemma set_pressed i c s p e marks w : w_sid w = i -> holds (p_term p) e -> marks = tm_force (p_term p) || tty_of i -> exists t',
  p_set_line (tty_of i) c s (mkProc w (p_term p)) = mkProc (out (swapped c marks s e) w) t' /\ holds t' (ended s) /\ marks || c = tm_force t' || tty_of i.
Proof.
  intros Hi Hh Hm. destruct (swap_line (tty_of i) c s (p_term p) e marks Hh Hm) as (t' & Ht & H1 & H2). exists t'. unfold p_set_line. cbn [p_world p_term]. rewrite Ht. unfold p_out. cbn [p_world p_term]. auto.
Qed.
Lemma line_good u t n : good t -> Forall fine (u_lines u) -> good (line_back u t n).
Proof.
  intros Ht Hl. unfold line_back. destruct n as [|n]; [exact Ht|]. cbn [nth]. destruct (nth_in_or_default n (rev (u_lines u)) []) as [Hn| ->]; [|split; [right; constructor|intros []]].
  apply in_rev in Hn. rewrite Forall_forall in Hl. exact (Hl _ Hn).
Qed.
Lemma turn_up_ok sz s u page u' t n : uok sz u -> good s -> draft_ok page -> turn_up sz s u page = (u', (t, n)) ->
  (page_ok sz u' (Some (t, n))) -> uok sz u' /\ good t.
Proof.
  intros (Hl & Hf & Ha) Hs Hd Ht Hp. destruct page as [[t0 [|m]]|]; cbn [turn_up] in Ht; injection Ht as <- <- <-.
  - split; [split; [exact Hl|split; [exact Hf|exact Ha]]|exact Hs].
  - split; [|exact Hd]. split; [cbn in *; lia|]. split; [exact Hf|]. cbn [rewrites u_lines]. apply Forall_rev, replaced_all; [exact Hs|apply Forall_rev, Ha].
  - split; [|exact Hs]. unfold makes_room in *. destruct (Nat.ltb _ _); [split; [exact Hl|split; [exact Hf|exact Ha]]|]. split; [cbn in *; lia|]. split; [cbn; lia|]. cbn [u_lines]. destruct (u_lines u); [exact Ha|]. inversion Ha. assumption.
Qed.
Lemma press_up i n c g u d late p : desk_at i c g u d late p -> pressed i n c g KUp u d late p.
Proof.
  intros (Hi & (Hat & Hh & Hpg & Hdr) & Hu & (Hho & Hm) & Hg & Hx & _). destruct d as [e m pg]. cbn [d_line d_marks d_page] in *.
  pose proof (turned_up (size i) u pg (ed_text e) (room_pos _) (proj1 Hu) Hpg) as Ht. destruct (turn_up (size i) (ed_text e) u pg) as [u' [t k]] eqn:Hturn. destruct Ht as (Hprev & Hpg' & Hpl).
  destruct (turn_up_ok _ _ _ _ _ _ _ Hu Hg Hdr Hturn Hpg') as (Hu' & Hgt). set (s := line_back u' t k).
  destruct (set_pressed i c s p e m (adj (hist_at (size i) u' (Some (t, k))) [EvOut i []] (p_world p)) Hi Hho Hm) as (t' & Hset & H1 & H2).
  do 2 eexists. eexists. exists t', [[]; swapped c m s e]. split; [eapply j_up; [exact Hturn|reflexivity]|]. cbn [d_line d_marks d_page]. fold s. split; [|split].
  - unfold press. cbn [keypressed ks_color ks_key ks_color' process p_out p_world p_term]. unfold get_line. cbn [p_term]. destruct Hho as (Hl & _). rewrite Hl. unfold previous_cmd. cbn [out log w_hist p_world]. rewrite Hh, Hprev.
    f_equal. etransitivity; [|etransitivity; [exact Hset|]].
    + f_equal. unfold set_hist, adj, p_out, out, log. cbn [p_world p_term w_root w_next w_store w_sid w_cur w_hist w_exit w_trace]. rewrite Hi. reflexivity.
    + unfold out, log, adj. cbn [w_root w_next w_store w_sid w_cur w_hist w_exit w_trace map]. rewrite Hi, <- app_assoc. reflexivity.
  - intros _. cbn [concat app]. apply app_nil_r.
  - rewrite ended_text. repeat (split; [first [assumption|apply line_good; [assumption|apply Hu']]|]). assumption.
Qed.
Lemma press_down i n c g u d late p : desk_at i c g u d late p -> pressed i n c g KDown u d late p.
Proof.
  intros (Hi & (Hat & Hh & Hpg & Hdr) & Hu & (Hho & Hm) & Hg & Hx & _). destruct d as [e m pg]. cbn [d_line d_marks d_page] in *.
  pose proof (turned_down (size i) u pg Hpg) as Ht. destruct (turn_down u pg) as [s pg'] eqn:Hturn. destruct Ht as (Hnext & Hpg').
  assert (Hgood : good s /\ draft_ok pg').
  { destruct pg as [[t [|k]]|]; cbn [turn_down] in Hturn; injection Hturn as <- <-; (split; [|exact Hdr]).
    - split; [right; constructor|intros []].
    - apply line_good; [exact Hdr|apply Hu].
    - split; [right; constructor|intros []]. }
  destruct (set_pressed i c s p e m (adj (hist_at (size i) u pg') [EvOut i []] (p_world p)) Hi Hho Hm) as (t' & Hset & H1 & H2).
  do 2 eexists. eexists. exists t', [[]; swapped c m s e]. split; [eapply j_down; exact Hturn|]. cbn [d_line d_marks d_page]. split; [|split].
  - unfold press. cbn [keypressed ks_color ks_key ks_color' process p_out p_world p_term]. unfold next_cmd. cbn [out log w_hist p_world]. rewrite Hh, Hnext.
    f_equal. etransitivity; [|etransitivity; [exact Hset|]].
    + f_equal. unfold set_hist, adj, p_out, out, log. cbn [p_world p_term w_root w_next w_store w_sid w_cur w_hist w_exit w_trace]. rewrite Hi. reflexivity.
    + unfold out, log, adj. cbn [w_root w_next w_store w_sid w_cur w_hist w_exit w_trace map]. rewrite Hi, <- app_assoc. reflexivity.
  - intros _. cbn [concat app]. apply app_nil_r.
  - rewrite ended_text. destruct Hgood. auto 10.
Qed.
Lemma press_tab i n c g u d late p : desk_at i c g u d late p -> 2 * length (ed_text (d_line d)) + 2 <= n -> pressed i n c g tab_key u d late p.
Proof.
  intros H Hn. pose proof H as (Hi & (Hat & Hh & Hpg & Hdr) & Hu & (Hho & Hm) & Hg & Hx & _).
  set (w0 := ext [EvOut i []] (p_world p)).
  destruct (tab_list P c g u w0 (ed_text (d_line d)) n Hat (proj1 Hg) Hn) as (l & Hl & Hs).
  assert (Hpress : press (env_of i) n (tty_of i) (mkStroke tab_key c c) p = process (env_of i) n (tty_of i) c SyTab (mkProc w0 (p_term p))).
  { unfold press, tab_key. cbn [keypressed ks_color ks_key ks_color']. cbn [Ascii.eqb Bool.eqb]. unfold p_out. cbn [p_world p_term]. rewrite out_ext, Hi. reflexivity. }
  cbn [process] in Hpress. unfold get_line in Hpress. cbn [p_term p_world] in Hpress. rewrite (proj1 Hho) in Hpress.
  assert (Hpl : e_plat (env_of i) = P) by (unfold WholeModel.env_of; destruct (Nat.eqb i 0); reflexivity). rewrite Hpl, Hl in Hpress.
  pose proof (suggestions_chars _ _ _ _ _ Hs) as Hch.
  assert (Hset : forall s, good s -> press (env_of i) n (tty_of i) (mkStroke tab_key c c) p = POk (p_set_line (tty_of i) c s (mkProc w0 (p_term p))) ->
    adjusts c g (size i) tab_key u d (swapped c (d_marks d) s (d_line d)) u (mkDesk (ended s) (d_marks d || c) (d_page d)) -> pressed i n c g tab_key u d late p).
  { intros s Hgs Hp Ha. destruct (set_pressed i c s p (d_line d) (d_marks d) w0 Hi Hho Hm) as (t' & Ht' & H1 & H2).
    do 2 eexists. eexists. exists t', [[]; swapped c (d_marks d) s (d_line d)]. split; [exact Ha|]. cbn [d_line d_marks d_page]. split; [|split].
    - rewrite Hp, Ht'. unfold out, log, w0, ext, adj. cbn [w_root w_next w_store w_sid w_cur w_hist w_exit w_trace map]. rewrite Hi, Hh, <- app_assoc. reflexivity.
    - intros _. cbn [concat app]. apply app_nil_r.
    - rewrite ended_text. auto 10. }
  destruct l as [|s [|s' l]].
  - destruct d as [e m pg]. cbn [d_line d_marks d_page] in *. do 2 eexists. eexists. exists (p_term p), [[]]. split; [apply j_none, Hs|]. cbn [d_line d_marks d_page]. split; [|split].
    + rewrite Hpress. unfold w0, ext, adj. rewrite Hh. reflexivity.
    + reflexivity.
    + auto 10.
  - apply (Hset (s ++ lit " ")); [|exact Hpress|].
    + apply good_ascii. inversion Hch as [|? ? Hc _]; subst. apply Forall_app. split; [exact Hc|apply ascii_charb_ok; reflexivity].
    + destruct d as [e m pg]. apply j_one, Hs.
  - set (l2 := s :: s' :: l) in *. destruct (common_prefix_spec l2) as (pre & Hpre & Hlcp); [discriminate|]. rewrite Hpre in Hpress. destruct (Nat.ltb_spec (length (ed_text (d_line d))) (length pre)) as [Hlt|Hge].
    + apply (Hset pre); [|exact Hpress|].
      * apply good_ascii. apply (lcp_chars l2); [discriminate|exact Hch|exact Hlcp].
      * destruct d as [e m pg]. apply (j_more _ _ _ _ _ _ _ l2); try assumption. unfold l2. cbn [length]. lia.
    + destruct (redraw i c g u d late p _ [[]; nl ++ flat_map (fun x => tab ++ x) l2 ++ nl] H eq_refl) as (t' & Hr & Ht & Hf). destruct d as [e m pg]. cbn [d_line d_marks d_page] in *.
      do 2 eexists. eexists. exists t'. eexists. split; [eapply (j_list _ _ _ _ _ _ _ l2); try eassumption; unfold l2; cbn [length]; lia|]. cbn [d_line d_marks d_page]. split; [|split].
      * rewrite Hpress. match type of Hr with p_bind (p_prompt _ _ (mkProc ?w _)) _ = _ => match goal with |- p_bind (p_prompt _ _ ?q) _ = _ => replace q with (mkProc w (p_term p)) end end.
        -- rewrite Hr. unfold adj, ext. rewrite Hh. reflexivity.
        -- unfold p_out, out, log, w0, ext. cbn [p_world p_term w_root w_next w_store w_sid w_cur w_hist w_exit w_trace map]. rewrite Hi, <- app_assoc. reflexivity.
      * intros ->. cbn [app concat]. unfold redrawn. rewrite app_nil_r, <- !app_assoc. reflexivity.
      * rewrite ended_text. auto 10.
Qed.
(** All keys but Enter and the end of input *)
Lemma press_adjust i n c g u d late p k : desk_at i c g u d late p -> ok_key P k -> k <> KRet -> k <> KEof -> 2 * length (ed_text (d_line d)) + 2 <= n ->
  pressed i n c g k u d late p.
Proof.
  intros H Hok Hr He Hn. destruct (editing k) eqn:Hed; [apply press_edit; assumption|].
  destruct k as [x| | | | | | | | | | | |]; cbn [editing] in Hed; try discriminate; try congruence.
  - apply negb_false_iff, Ascii.eqb_eq in Hed. subst x. apply press_tab; assumption.
  - apply press_up, H.
  - apply press_down, H.
  - apply press_clear, H.
Qed.

Lemma exits_desk i c g u d late p : desk_at i c g u d late p ->
  exits_well (e_hook (env_of i)) (p_world p).
Proof.
  intros (Hi & _ & _ & _ & _ & Hx & Hg & Hlate). unfold exits_well. rewrite Hi, Hx. unfold WholeModel.env_of. destruct (Nat.eqb_spec i 0) as [->|Hne].
  - destruct late; [destruct (Hlate eq_refl eq_refl)|]. exists []. reflexivity.
  - unfold telnet_env. cbn [e_hook e_has cx_env cx_hook ur_end map]. rewrite removelast_last, closed_gone, Hg, Hnet. eexists.
    unfold bye. destruct (Nat.eqb_spec i 0); [contradiction|]. destruct late; reflexivity.
Qed.
Lemma feed_desk i n c g u d late p : deep <= n -> desk_at i c g u d late p -> let w := set_hist (hist_of (size i) u) (p_world p) in
  (feed (env_of i) n (ed_text (d_line d)) w = FFuel /\ forall r, ~ answers (whole_complex rc) pc (Nat.eqb i 0) (size i) c g u (ed_text (d_line d)) r) \/
  lined P rc pc (size i) c g u (ed_text (d_line d)) w (feed (env_of i) n (ed_text (d_line d)) w).
Proof.
  intros Hdp H. pose proof (exits_desk _ _ _ _ _ _ _ H) as Hw. destruct H as (Hi & ((Hr & Hc) & _) & Hu & _ & (Hg1 & Hg2) & _). cbn zeta.
  assert (Hl : clike (size i) c g u (set_hist (hist_of (size i) u) (p_world p))) by (split; [exact Hr|split; [exact Hc|reflexivity]]).
  enough (Hx : (feed (env_of i) n (ed_text (d_line d)) (set_hist (hist_of (size i) u) (p_world p)) = FFuel /\
      forall r, ~ answers (whole_complex rc) pc (Nat.eqb (w_sid (set_hist (hist_of (size i) u) (p_world p))) 0) (size i) c g u (ed_text (d_line d)) r) \/
    lined P rc pc (size i) c g u (ed_text (d_line d)) (set_hist (hist_of (size i) u) (p_world p)) (feed (env_of i) n (ed_text (d_line d)) (set_hist (hist_of (size i) u) (p_world p)))).
  { destruct Hx as [(A & B)|A]; [left; split; [exact A|]|right; exact A]. intros r. specialize (B r). cbn [set_hist w_sid] in B. rewrite Hi in B. exact B. }
  unfold WholeModel.env_of in *. destruct (Nat.eqb i 0).
  - apply (any_line P rc pc Hstrict cx_hook (fun k => match k with KCliEnter | KSesEnter => false | _ => true end) ltac:(reflexivity) ltac:(reflexivity)); try assumption. apply (room_size true).
  - apply (any_line P rc pc Hstrict (e_hook (telnet_env E net)) (e_has (telnet_env E net))); try assumption.
    + intros sid [] args tr Hk; try reflexivity. contradiction.
    + intros []; reflexivity.
    + apply (room_size false).
Qed.
Definition after_ret (i : nat) (evs : list event) (shown : str) : list event :=
  [EvOut i ["013"; "010"]%char; EvInput i false] ++ evs ++ [EvOut i shown; EvInput i true].
Lemma press_ret i n c g u d late p : deep <= n -> desk_at i c g u d late p ->
  ((forall r, ~ answers (whole_complex rc) pc (Nat.eqb i 0) (size i) c g u (ed_text (d_line d)) r) /\
   forall c2, press (env_of i) n (tty_of i) (mkStroke KRet c c2) p = PFuel) \/
  exists rep,
  answers (whole_complex rc) pc (Nat.eqb i 0) (size i) c g u (ed_text (d_line d)) rep /\
  match rep with
  | Broken => forall c2, let r := press (env_of i) n (tty_of i) (mkStroke KRet c c2) p in
      r = PUB \/ exists p' evs, r = POk p' /\ w_trace (p_world p') = w_trace (p_world p) ++ evs /\ existsb overflows evs = true
  | Reply own all u' c' g' lf => uok (size i) u' /\ exists evs page', told late lf i evs own all /\ quiet_call c evs c' /\
      page_after (ed_text (d_line d)) (d_page d) page' /\ page_ok (size i) u' page' /\ draft_ok page' /\ (lf = true -> page' = None) /\
      forall c2, press (env_of i) n (tty_of i) (mkStroke KRet c c2) p =
        POk (mkProc (mkWorld (root_of c' g') (w_next (p_world p))
          (if lf && negb late then st_store (w_store (p_world p)) (lastn (u_typed u') (u_lines u')) else w_store (p_world p))
          i (cid (u_place u')) (hist_at (size i) u' page') (lf || late)
          (w_trace (p_world p) ++ after_ret i evs (if lf || late then [] else prompt_shown c2 (d_marks d) (u_place u'))))
          (mkTerm [] 0 (if lf || late then tm_force (p_term p) else c2 || tm_force (p_term p))))
  end.
Proof.
  intros Hdp H. set (w0 := ext [EvOut i ["013"; "010"]%char; EvInput i false] (p_world p)).
  assert (H0 : desk_at i c g u d late (mkProc w0 (p_term p))).
  { destruct H as (Hi & Hl & Hu & Hh & Hg & Hx & Hgo & Hlate). repeat (split; [assumption|]). split; [|exact Hlate].
    cbn [p_world w0 ext w_trace]. rewrite gone_app, Hgo. cbn. apply orb_false_r. }
  pose proof (feed_desk _ n _ _ _ _ _ _ Hdp H0) as Hfeed. destruct n as [|n]; [unfold deep in Hdp; lia|]. cbn zeta in Hfeed. cbn [p_world] in Hfeed.
  destruct H as (Hi & ((Hr & Hc) & Hhist & Hpg & Hdr) & Hu & ((Hh1 & Hh2) & Hm) & Hg & Hx & Hgo & Hlate).
  assert (Hpress : forall c2, press (env_of i) (S n) (tty_of i) (mkStroke KRet c c2) p =
    p_bind (of_fres (feed (env_of i) (S n) (ed_text (d_line d)) w0) (mkTerm [] 0 (tm_force (p_term p)))) (fun p2 => p_bind (p_prompt (tty_of i) c2 p2) (fun p3 => POk (p_log (EvInput (w_sid (p_world p3)) true) p3)))).
  { intros c2. unfold press. cbn [keypressed ks_key ks_color ks_color']. cbn [process]. rewrite Hh1. cbn [p_out p_log p_world p_term]. rewrite out_ext. cbn [ext w_sid]. rewrite log_ext. fold (ext [EvOut (w_sid (p_world p)) ["013"; "010"]%char] (p_world p)). rewrite ext_ext, Hi. reflexivity. }
  assert (Hend : forall w' c' g' u' lf c2, feed (env_of i) (S n) (ed_text (d_line d)) w0 = FOk w' -> at_place c' g' u' w' -> w_exit w' = lf || late -> w_sid w' = i ->
    press (env_of i) (S n) (tty_of i) (mkStroke KRet c c2) p =
      POk (mkProc (ext [EvOut i (if lf || late then [] else prompt_shown c2 (d_marks d) (u_place u')); EvInput i true] w') (mkTerm [] 0 (if lf || late then tm_force (p_term p) else c2 || tm_force (p_term p))))).
  { intros w' c' g' u' lf c2 Hf Hat Hx' Hs'. rewrite Hpress, Hf. cbn [of_fres p_bind]. unfold p_prompt. cbn [p_world p_term tm_force tm_line tm_pos].
    rewrite (prompt_at (tty_of i) c2 (tm_force (p_term p)) c' g' u') by exact Hat. rewrite Hx', Hm. cbn [p_bind]. unfold p_log, p_out, out, log, ext. cbn [p_world p_term w_root w_next w_store w_sid w_cur w_hist w_exit w_trace].
    rewrite Hs', <- !app_assoc. reflexivity. }
  assert (Hdec : words (ed_text (d_line d)) [] \/ ~ words (ed_text (d_line d)) []) by apply blank_dec.
  destruct Hdec as [Hb|Hb].
  { right. exists (Reply [] [] u c g false). split; [apply a_blank, Hb|]. split; [exact Hu|]. exists [], (d_page d). split; [apply to_nil|]. split; [split; reflexivity|].
    split; [left; auto|]. split; [exact Hpg|]. split; [exact Hdr|]. split; [discriminate|]. intros c2.
    rewrite (Hend w0 c g u false c2); [|apply feed_blank, Hb|split; assumption|exact Hx|exact Hi]. unfold w0, ext, after_ret. cbn [w_root w_next w_store w_sid w_cur w_hist w_exit w_trace andb orb]. rewrite Hr, Hc, Hhist, Hi, Hx, <- !app_assoc. reflexivity. }
  rewrite <- (feed_at (env_of i) n (size i) u (d_page d) _ w0 (room_pos _) Hpg Hhist Hb) in Hfeed. destruct Hfeed as [(Hff & Hans)|(rep & Hans & Hrep)].
  { left. split; [exact Hans|]. intros c2. rewrite Hpress, Hff. reflexivity. }
  right. cbn [w0 ext set_hist w_sid] in Hans. rewrite Hi in Hans. exists rep. split; [exact Hans|].
  destruct rep as [own all u' c' g' lf|].
  - destruct Hrep as (Hu' & evs & Ht & Hq & Hf). split; [exact Hu'|]. exists evs, None. cbn [w0 ext set_hist w_sid w_exit] in Ht. rewrite Hi, Hx in Ht. split; [exact Ht|]. split; [exact Hq|].
    split; [right; auto|]. split; [exact Logic.I|]. split; [exact Logic.I|]. split; [reflexivity|].
    intros c2. rewrite (Hend _ c' g' u' lf c2 Hf); [|split; reflexivity|cbn [w_exit w0 ext set_hist]; rewrite Hx; reflexivity|exact Hi].
    unfold w0, ext, set_hist. cbn [w_root w_next w_store w_sid w_cur w_hist w_exit w_trace]. unfold after_ret. rewrite Hi, Hx, <- !app_assoc. reflexivity.
  - intros c2. cbn zeta. rewrite Hpress. destruct Hrep as [->|(w' & evs & -> & Ht & Hov)]; [left; reflexivity|]. cbn [of_fres p_bind]. unfold p_prompt.
    destruct (prompt _ _ _ _) as [[b f]|]; [|left; reflexivity]. right. cbn [p_bind p_out p_log p_world p_term]. eexists. eexists. split; [reflexivity|].
    cbn [p_world p_log log w_trace p_out out]. rewrite Ht. cbn [w0 ext set_hist w_trace]. rewrite <- !app_assoc. split; [reflexivity|].
    rewrite !existsb_app, Hov. cbn. reflexivity.
Qed.
Lemma press_eof i n c g u d late p c2 : desk_at i c g u d late p ->
  if late then exists x p', press (env_of i) n (tty_of i) (mkStroke KEof c c2) p = PExc x p'
  else press (env_of i) n (tty_of i) (mkStroke KEof c c2) p =
    POk (mkProc (mkWorld (root_of c g) (w_next (p_world p)) (st_store (w_store (p_world p)) (lastn (u_typed u) (u_lines u))) i (cid (u_place u)) (hist_at (size i) u (d_page d)) true
      (w_trace (p_world p) ++ EvOut i [] :: farewell i)) (p_term p)).
Proof.
  intros H. set (w0 := ext [EvOut i []] (p_world p)).
  assert (H0 : desk_at i c g u d late (mkProc w0 (p_term p))).
  { destruct H as (Hi & Hl & Hu & Hh & Hg & Hx & Hgo & Hlate). repeat (split; [assumption|]). split; [|exact Hlate].
    cbn [p_world w0 ext w_trace]. rewrite gone_app, Hgo. cbn. apply orb_false_r. }
  destruct (exits_desk _ _ _ _ _ _ _ H0) as (what & Hw). destruct H as (Hi & ((Hl1 & Hl2) & Hl3 & _) & Hu & _ & Hg & Hx & Hgo & Hlate).
  cbn [p_world] in Hw. change (w_sid w0) with (w_sid (p_world p)) in Hw. change (w_exit w0) with (w_exit (p_world p)) in Hw. rewrite Hi, Hx in Hw.
  assert (Hhas : e_has (env_of i) KSesExit = true /\ e_has (env_of i) KCliExit = true) by (unfold WholeModel.env_of; destruct (Nat.eqb i 0); split; reflexivity).
  assert (Hcli : forall tr, e_hook (env_of i) i KCliExit [] tr = mkURes (map OOut [fish]) UReturn) by (intros tr; unfold WholeModel.env_of; destruct (Nat.eqb i 0); reflexivity).
  assert (Hpress : press (env_of i) n (tty_of i) (mkStroke KEof c c2) p = of_hres (session_exit (env_of i) w0) (p_term p)).
  { unfold press. cbn [keypressed ks_key ks_color ks_color' process p_out p_world p_term]. rewrite out_ext, Hi. reflexivity. }
  set (w1 := ext [EvHook i KSesExit []; EvOut i (bye i)] w0).
  assert (Hs : run_hook (env_of i) KSesExit [] w0 = if late then HExc (XStd what) w1 else HOk w1).
  { unfold run_hook. cbn zeta. rewrite log_ext. change (w_sid (ext [EvHook (w_sid w0) KSesExit []] w0)) with (w_sid (p_world p)). change (w_sid w0) with (w_sid (p_world p)). rewrite Hi.
    change (w_trace (ext [EvHook i KSesExit []] w0)) with (w_trace w0 ++ [EvHook i KSesExit []]). rewrite Hw. cbn [ur_ops ur_end].
    assert (Hw1 : apply_ops [OOut (bye i)] (ext [EvHook i KSesExit []] w0) = w1).
    { unfold apply_ops. cbn [fold_left apply_op]. rewrite out_ext. change (w_sid (ext [EvHook i KSesExit []] w0)) with (w_sid (p_world p)). rewrite Hi, ext_ext. reflexivity. }
    rewrite Hw1. destruct late; reflexivity. }
  assert (Hc : run_hook (env_of i) KCliExit [] w1 = HOk (ext [EvHook i KCliExit []; EvOut i fish] w1)).
  { unfold run_hook. cbn zeta. rewrite log_ext. change (w_sid (ext [EvHook (w_sid w1) KCliExit []] w1)) with (w_sid (p_world p)). change (w_sid w1) with (w_sid (p_world p)). rewrite Hi, Hcli. cbn [ur_ops ur_end map].
    unfold apply_ops. cbn [fold_left apply_op]. rewrite out_ext. change (w_sid (ext [EvHook i KCliExit []] w1)) with (w_sid (p_world p)). rewrite Hi, ext_ext. reflexivity. }
  rewrite Hpress. unfold session_exit. destruct Hhas as (-> & ->). rewrite Hs. destruct late; [do 2 eexists; reflexivity|]. cbn [h_bind]. rewrite Hc. cbn [h_bind].
  unfold w1, w0. rewrite !ext_ext. unfold ext, set_exit, set_store. cbn [w_root w_next w_store w_sid w_cur w_hist w_exit w_trace]. rewrite Hl1, Hl2, Hl3, Hi, commands_at. reflexivity.
Qed.

(** ** All users *)
Definition conn_like (H : hall) (i : nat) (co : option conn) (tr : list event) : Prop :=
  match co with
  | None => o_users (l_house H) i = None /\ l_late H i = None
  | Some c => exists u,
      (if c_exit c then o_users (l_house H) i = None /\ l_late H i = Some u else o_users (l_house H) i = Some u /\ l_late H i = None) /\
      gone i tr = c_exit c /\ c_cur c = cid (u_place u) /\
      (c_hist c = hist_at (size i) u (d_page (l_desks H i)) /\ page_ok (size i) u (d_page (l_desks H i)) /\ draft_ok (d_page (l_desks H i))) /\ uok (size i) u /\
      holds (c_term c) (d_line (l_desks H i)) /\ good (ed_text (d_line (l_desks H i))) /\
      d_marks (l_desks H i) = tm_force (c_term c) || tty_of i
  end.
Definition wlike (H : hall) (sv : server) : Prop :=
  let h := l_house H in
  sv_root sv = root_of (o_colour h) (o_gone h) /\ (exists f, sv_store sv = StFile 1000 f /\ f_commands f = o_saved h) /\ Forall fine (o_saved h) /\
  cx_color (sv_trace sv) = o_colour h /\ (forall i, conn_like H i (sv_conns sv i) (sv_trace sv)) /\
  sv_sid sv = o_count h /\ o_closed h = gone 0 (sv_trace sv) /\ (forall i, sv_sid sv <= i -> sv_conns sv i = None /\ gone i (sv_trace sv) = false).

(** What is heard *)
Definition there (H : hall) (m : move) (j : nat) : bool :=
  match o_users (l_house H) j, m with Some _, _ => true | None, Arrives => Nat.eqb j (o_count (l_house H)) | None, _ => false end.
Definition saw (H : hall) (m : move) (tr evs : list event) (said : nat -> str) : Prop := forall j,
  if there H m j then
    if Nat.eqb j 0 then audible 0 evs = said 0
    else audible j (gets E net j tr evs None) = said j /\ lefts E net j tr evs None = if gone j evs then Some 0 else None
  else said j = [] /\ (gone j tr = false -> gone j evs = false).
Lemma saw_quiet H m i tr evs said : (forall j, j <> i -> for_user j evs = [] /\ gone j evs = false) -> (there H m i = true -> gone i evs = false /\ said i = audible i evs) ->
  (there H m i = true \/ gone i tr = true) ->
  (forall j, j <> i -> there H m j = true -> said j = for_all evs) -> (forall j, there H m j = false -> said j = []) -> saw H m tr evs said.
Proof.
  intros Ho Hi Hw Hj Hn j. destruct (there H m j) eqn:Ht.
  2: { split; [apply Hn, Ht|]. intros Hg. destruct (Nat.eq_dec j i) as [->|Hne]; [destruct Hw; congruence|]. apply Ho, Hne. }
  assert (Hg : gone j evs = false /\ audible j evs = said j).
  { destruct (Nat.eq_dec j i) as [->|Hne]; [destruct (Hi Ht) as (H1 & H2); auto|]. destruct (Ho j Hne) as (H1 & H2). split; [exact H2|]. rewrite (audible_all _ _ H1). symmetry. apply Hj; assumption. }
  destruct Hg as (Hg & Ha). destruct (Nat.eqb_spec j 0) as [->|_]; [exact Ha|].
  destruct (gets_open E net j evs tr) as (H1 & H2); [rewrite closed_in_gone, Hg; apply andb_false_r|]. rewrite H1, H2, Hg. auto.
Qed.
Lemma saw_leave H k i tr pre post : there H (Hits i k) i = true -> gone i pre = false -> for_all pre = [] ->
  (forall j, j <> i -> for_user j (pre ++ post) = [] /\ gone j (pre ++ post) = false) -> for_all post = [] -> for_user i post = [] -> gone i post = false ->
  saw H (Hits i k) tr (pre ++ farewell i ++ post) (for_one i (for_user i pre ++ goodbye i)).
Proof.
  intros Hti Hg Ha Ho Hap Hup Hgp j. unfold for_one. destruct (there H (Hits i k) j) eqn:Ht; [|destruct (Nat.eqb_spec j i) as [->|Hji]; [congruence|]].
  2: { split; [reflexivity|]. intros _. destruct (Ho j Hji) as (_ & Hgj). rewrite gone_app in Hgj. apply orb_false_iff in Hgj as (Hg1 & Hg2). rewrite !gone_app, Hg1, Hg2. cbn. apply Nat.eqb_neq in Hji. rewrite Nat.eqb_sym, Hji. reflexivity. }
  assert (Hall : for_all (pre ++ farewell i ++ post) = []) by (rewrite !for_all_app, Ha, Hap; reflexivity).
  destruct (Nat.eqb_spec j i) as [->|Hne].
  - destruct (Nat.eqb_spec i 0) as [->|Hi0].
    + rewrite audible_user by exact Hall. rewrite !for_user_app, Hup, app_nil_r. reflexivity.
    + destruct (gets_open E net i pre tr) as (H1 & H2); [rewrite closed_in_gone, Hg; apply andb_false_r|].
      rewrite !gets_app, !lefts_app, H1, H2.
      assert (Hf : gets E net i (tr ++ pre) (farewell i) None = [EvHook i KSesExit []; EvOut i (bye i)] /\ lefts E net i (tr ++ pre) (farewell i) None = Some 0).
      { unfold farewell. cbn [outs app gets lefts after_event e_hook e_has cx_env cx_hook map ur_ops ur_end filter noisy]. rewrite Nat.eqb_refl, Hnet. cbn. split; reflexivity. }
      destruct Hf as (-> & ->). rewrite gets_zero, lefts_zero, app_nil_r. split.
      * rewrite audible_app, audible_user by exact Ha. f_equal. unfold audible, goodbye, bye. cbn. rewrite Nat.eqb_refl. destruct (Nat.eqb_spec i 0); [contradiction|]. apply app_nil_r.
      * rewrite !gone_app. cbn. rewrite Nat.eqb_refl. destruct (gone i pre); reflexivity.
  - destruct (Ho j Hne) as (Hu & Hgj). rewrite for_user_app in Hu. apply app_eq_nil in Hu as (Hu1 & Hu2). rewrite gone_app in Hgj. apply orb_false_iff in Hgj as (Hg1 & Hg2).
    assert (Hi' : Nat.eqb i j = false) by (apply Nat.eqb_neq; congruence).
    assert (Hgo : gone j (pre ++ farewell i ++ post) = false) by (rewrite !gone_app, Hg1, Hg2; cbn; rewrite Hi'; reflexivity).
    assert (Hau : audible j (pre ++ farewell i ++ post) = []) by (rewrite audible_user by exact Hall; rewrite !for_user_app, Hu1, Hu2; cbn; rewrite Hi'; reflexivity).
    destruct (Nat.eqb_spec j 0) as [->|_]; [rewrite (proj2 (Nat.eqb_neq 0 i) Hne); exact Hau|].
    destruct (gets_open E net j (pre ++ farewell i ++ post) tr) as (H1 & H2); [rewrite closed_in_gone, Hgo; apply andb_false_r|]. rewrite H1, H2, Hgo. auto.
Qed.

Lemma wlike_key H sv i co p evs H' : wlike H sv -> sv_conns sv i = Some co ->
  w_root (p_world p) = root_of (o_colour (l_house H')) (o_gone (l_house H')) -> w_trace (p_world p) = sv_trace sv ++ evs ->
  quiet_call (o_colour (l_house H)) evs (o_colour (l_house H')) ->
  ((w_store (p_world p) = sv_store sv /\ o_saved (l_house H') = o_saved (l_house H)) \/
   exists cmds, w_store (p_world p) = st_store (sv_store sv) cmds /\ o_saved (l_house H') = lastn 1000 (o_saved (l_house H) ++ cmds) /\ Forall fine cmds) ->
  (forall j, j <> i -> gone j evs = false) ->
  (forall j, j <> i -> o_users (l_house H') j = o_users (l_house H) j /\ l_late H' j = l_late H j /\ l_desks H' j = l_desks H j) ->
  o_count (l_house H') = o_count (l_house H) -> o_closed (l_house H') = gone 0 (sv_trace sv ++ evs) ->
  conn_like H' i (Some (mkConn (c_dev co) (p_term p) (w_cur (p_world p)) (w_hist (p_world p)) (w_exit (p_world p)) false)) (sv_trace sv ++ evs) ->
  wlike H' (after_key E net sv i co p).
Proof.
  intros (Hr & (f & Hf & Hs) & Hfine & Hc & Hl & Hn & Hcl & Hnew) Hco Hroot Htr (_ & Hq) Hst Hgo Hsame Hcount Hclosed Hme.
  assert (Hi : i < sv_sid sv). { destruct (le_lt_dec (sv_sid sv) i) as [Hle|Hlt]; [|exact Hlt]. destruct (Hnew i Hle) as (Hx & _). congruence. }
  unfold wlike, after_key. cbn [sv_root sv_store sv_trace sv_conns sv_sid]. rewrite Htr.
  split; [exact Hroot|]. split; [|split; [|split; [|split; [|split; [|split]]]]].
  - destruct Hst as [(-> & ->)|(cmds & -> & -> & Hfc)]; [exists f; auto|]. rewrite Hf. cbn [st_store]. eexists. split; [reflexivity|]. unfold f_store. cbn [f_commands]. rewrite append_trim_lastn, Hs.
    apply getlines_put. apply Forall_lastn, Forall_app. split; [rewrite <- Hs; apply f_commands_one_line|]. eapply Forall_impl; [|exact Hfc]. intros l Hl'. apply Hl'.
  - destruct Hst as [(_ & ->)|(cmds & _ & -> & Hfc)]; [exact Hfine|]. apply Forall_lastn, Forall_app. split; assumption.
  - rewrite (color_app _ _ _ Hc). exact Hq.
  - intros j. unfold upd_conn. destruct (Nat.eqb_spec j i) as [->|Hne]; [exact Hme|]. specialize (Hl j). destruct (Hsame j Hne) as (Hu & Hla & Hd).
    unfold conn_like in *. destruct (sv_conns sv j) as [c|]; [|rewrite Hu, Hla; exact Hl].
    rewrite Hu, Hla, Hd, gone_app, (Hgo j Hne), orb_false_r. exact Hl.
  - rewrite Hcount. exact Hn.
  - exact Hclosed.
  - intros j Hj. assert (Hne : j <> i) by lia. destruct (Hnew j Hj) as (Hx & Hy). unfold upd_conn. destruct (Nat.eqb_spec j i); [contradiction|]. split; [exact Hx|].
    rewrite gone_app, Hy, (Hgo j Hne). reflexivity.
Qed.
Definition dep (co : conn) : nat := WholeModel.depth fuel co.
Lemma run_key_ok i k co sv p1 p2 evs : press (env_of i) (dep co) (tty_of i) (mkStroke k (cx_color (sv_trace sv)) (cx_color (sv_trace sv))) (proc_of sv i co) = POk p1 ->
  press (env_of i) (dep co) (tty_of i) (mkStroke k (cx_color (sv_trace sv)) (cx_color (w_trace (p_world p1)))) (proc_of sv i co) = POk p2 ->
  w_trace (p_world p2) = sv_trace sv ++ evs -> existsb overflows evs = false ->
  run_key P rc pc net F tty i k co sv = VOk (after_key E net sv i co p2).
Proof. intros H1 H2 Ht Ho. unfold run_key. cbn zeta. change (WholeModel.depth F co) with (dep co). rewrite H1, H2, Ht, skip_app, Ho. reflexivity. Qed.
Lemma color_quiet tr evs : existsb (fun e => match e with EvCall _ _ _ => true | _ => false end) evs = false -> cx_color (tr ++ evs) = cx_color tr /\ existsb overflows evs = false /\ fold_left paint evs (cx_color tr) = cx_color tr.
Proof.
  intros H. rewrite (color_app tr evs _ eq_refl). assert (H' : forall c, fold_left paint evs c = c /\ existsb overflows evs = false).
  { induction evs as [|e evs IH]; intros c; [split; reflexivity|]. cbn [existsb fold_left] in *. apply orb_false_iff in H as (H1 & H2). destruct e; try discriminate; cbn [paint overflows orb]; apply IH, H2. }
  destruct (H' (cx_color tr)). auto.
Qed.

(** ** Handling a key of a user *)
Lemma only_outs i l : let evs := map (EvOut i) l in
  (forall j, j <> i -> for_user j evs = [] /\ gone j evs = false) /\ gone i evs = false /\ for_all evs = [] /\ audible i evs = concat l /\
  existsb (fun e => match e with EvCall _ _ _ => true | _ => false end) evs = false.
Proof.
  cbn zeta. assert (Hg : forall j, gone j (map (EvOut i) l) = false) by (intros j; unfold gone; induction l as [|s l IH]; [reflexivity|exact IH]).
  assert (Ha : for_all (map (EvOut i) l) = []) by (clear; unfold for_all; induction l as [|s l IH]; [reflexivity|exact IH]).
  split; [|split; [apply Hg|split; [exact Ha|split]]].
  - intros j Hj. split; [|apply Hg]. clear -Hj. unfold for_user. induction l as [|s l IH]; [reflexivity|]. cbn. destruct (Nat.eqb_spec i j); [congruence|]. exact IH.
  - clear. unfold audible. induction l as [|s l IH]; [reflexivity|]. cbn. rewrite Nat.eqb_refl. f_equal. exact IH.
  - clear. induction l as [|s l IH]; [reflexivity|exact IH].
Qed.
Definition keyed (H : hall) (sv : server) (i : nat) (k : key) (co : conn) (said : nat -> str) (res : hall + ending) : Prop :=
  match res with
  | inl H' => exists p evs, run_key P rc pc net F tty i k co sv = VOk (after_key E net sv i co p) /\ w_trace (p_world p) = sv_trace sv ++ evs /\
      wlike H' (after_key E net sv i co p) /\ saw H (Hits i k) (sv_trace sv) evs said
  | inr Undef => run_key P rc pc net F tty i k co sv = VUB
  | inr Crash => exists x sv', run_key P rc pc net F tty i k co sv = VExc x sv'
  | inr Endless => run_key P rc pc net F tty i k co sv = VFuel
  end.
Ltac same := let j := fresh "j" in let Hj := fresh "Hj" in intros j Hj; cbn [l_house l_late l_desks o_users stays departs]; unfold put, place_user;
  apply Nat.eqb_neq in Hj; rewrite ?Hj; auto.

(** Keys that only print for their user *)
Definition who (H : hall) (i : nat) (late : bool) (u : user) : Prop :=
  if late then o_users (l_house H) i = None /\ l_late H i = Some u else o_users (l_house H) i = Some u /\ l_late H i = None.
Lemma outs_key H sv i k co u u' d' texts_ t' said H' : wlike H sv -> sv_conns sv i = Some co -> who H i (c_exit co) u ->
  (press (env_of i) (dep co) (tty_of i) (mkStroke k (o_colour (l_house H)) (o_colour (l_house H))) (proc_of sv i co) =
    POk (mkProc (adj (hist_at (size i) u' (d_page d')) (map (EvOut i) texts_) (p_world (proc_of sv i co))) t')) ->
  (c_exit co = false -> concat texts_ = said) -> holds t' (d_line d') -> d_marks d' = tm_force t' || tty_of i -> good (ed_text (d_line d')) ->
  uok (size i) u' -> page_ok (size i) u' (d_page d') -> draft_ok (d_page d') -> u_place u' = u_place u ->
  H' = mkHall (stays (l_house H) i (if c_exit co then None else Some u') (o_colour (l_house H)) (o_gone (l_house H))) (put i d' (l_desks H)) (if c_exit co then put i (Some u') (l_late H) else l_late H) ->
  keyed H sv i k co (if c_exit co then fun _ => [] else for_one i said) (inl H').
Proof.
  intros Hw Hco Hu0 Hp Hsaid Hh Hm Hg Huok Hpg Hdr Hpl ->. pose proof Hw as (Hr & Hst & Hfine & Hc & Hl & Hn & Hcl & Hnew). pose proof (Hl i) as Hi. rewrite Hco in Hi. destruct Hi as (u0 & Hu & Hgi & Hcur & _).
  assert (u0 = u) by (unfold who in Hu0; destruct (c_exit co); destruct Hu, Hu0; congruence). subst u0.
  destruct (only_outs i texts_) as (O1 & O2 & O3 & O4 & O5). set (evs := map (EvOut i) texts_) in *. destruct (color_quiet (sv_trace sv) evs O5) as (Q1 & Q2 & Q3).
  exists (mkProc (adj (hist_at (size i) u' (d_page d')) evs (p_world (proc_of sv i co))) t'), evs. rewrite <- Hc in Hp. split; [|split; [reflexivity|split]].
  - eapply run_key_ok; [exact Hp| |reflexivity|exact Q2]. cbn [p_world adj w_trace]. change (w_trace (p_world (proc_of sv i co))) with (sv_trace sv). rewrite Q1. exact Hp.
  - apply (wlike_key H sv i co _ evs); try assumption; cbn [l_house stays o_colour o_gone o_saved o_users o_count o_closed p_world adj w_root w_trace w_store w_cur w_hist w_exit p_term proc_of].
    + reflexivity.
    + split; [exact Q2|]. rewrite <- Hc. exact Q3.
    + left. split; reflexivity.
    + intros j Hj. apply O1, Hj.
    + destruct (c_exit co); same.
    + reflexivity.
    + rewrite gone_app, <- Hcl. destruct (Nat.eq_dec 0 i) as [<-|Hne]; [rewrite O2; symmetry; apply orb_false_r|]. destruct (O1 0 Hne) as (_ & ->). symmetry. apply orb_false_r.
    + exists u'. cbn [c_exit c_cur c_hist c_term l_house l_late l_desks stays o_users]. unfold put, place_user. rewrite Nat.eqb_refl, gone_app, O2, orb_false_r, Hpl.
      split; [destruct (c_exit co); destruct Hu; rewrite ?Nat.eqb_refl; auto|]. auto 10.
  - apply (saw_quiet _ _ i).
    + exact O1.
    + unfold there. destruct (c_exit co); destruct Hu as (Hu & Hla); rewrite Hu; [discriminate|]. intros _. split; [exact O2|]. rewrite O4, (Hsaid eq_refl). unfold for_one. rewrite Nat.eqb_refl. reflexivity.
    + unfold there. destruct (c_exit co) eqn:Hx; destruct Hu as (Hu & Hla); rewrite Hu; [right; exact Hgi|left; reflexivity].
    + intros j Hj _. rewrite O3. destruct (c_exit co); [reflexivity|]. unfold for_one. apply Nat.eqb_neq in Hj. rewrite Hj. reflexivity.
    + intros j Hj. destruct (c_exit co); [reflexivity|]. unfold for_one. destruct (Nat.eqb_spec j i) as [->|_]; [|reflexivity]. unfold there in Hj. destruct Hu as (Hu & _). rewrite Hu in Hj. discriminate.
Qed.

Definition key_done (H : hall) (sv : server) (i : nat) (k : key) (co : conn) : Prop :=
  exists said res, moves (whole_complex rc) pc tty H (Hits i k) said res /\ keyed H sv i k co said res.
Lemma desk_of H sv i co : wlike H sv -> gone 0 (sv_trace sv) = false -> sv_conns sv i = Some co -> exists u, who H i (c_exit co) u /\
  desk_at i (o_colour (l_house H)) (o_gone (l_house H)) u (l_desks H i) (c_exit co) (proc_of sv i co).
Proof.
  intros (Hr & Hst & Hfine & Hc & Hl & Hn & Hcl & Hnew) Hns Hco. specialize (Hl i). rewrite Hco in Hl. destruct Hl as (u & Hu & Hgi & Hcur & (Hhist & Hpg & Hdr) & Hok & Hh & Hg & Hm).
  exists u. split; [exact Hu|]. split; [reflexivity|]. split; [split; [split; [exact Hr|exact Hcur]|auto]|]. split; [exact Hok|]. split; [split; [exact Hh|exact Hm]|]. split; [exact Hg|]. split; [reflexivity|]. split; [exact Hgi|].
  intros Hx ->. cbn [proc_of p_world w_trace] in Hgi. rewrite Hns in Hgi. congruence.
Qed.
Lemma key_adjust H sv i k co : wlike H sv -> gone 0 (sv_trace sv) = false -> sv_conns sv i = Some co -> ok_key P k -> k <> KRet -> k <> KEof -> key_done H sv i k co.
Proof.
  intros Hw Hns Hco Hok Hk1 Hk2. destruct (desk_of H sv i co Hw Hns Hco) as (u & Hu & Hd).
  destruct (press_adjust i (dep co) _ _ _ _ _ _ k Hd Hok Hk1 Hk2) as (said & u' & d' & t' & texts_ & Ha & Hp & Hs & Hh & Hm & Hg & Huok & Hpg & Hdr & Hpl).
  { destruct Hd as (_ & _ & _ & ((Hl & _) & _) & _). unfold dep, WholeModel.depth. cbn [proc_of p_term] in Hl. unfold get_line. rewrite Hl. lia. }
  - exists (if c_exit co then fun _ => [] else for_one i said). eexists. split; [|eapply outs_key; try eassumption; reflexivity].
    unfold who in Hu. destruct (c_exit co); destruct Hu as (Hu & Hla); [eapply m_late_adjusts; eauto|eapply m_adjusts; eauto].
Qed.
Lemma fine_typed i u : uok (size i) u -> Forall fine (lastn (u_typed u) (u_lines u)).
Proof. intros (_ & _ & H). apply Forall_lastn, H. Qed.
Lemma key_eof H sv i co : wlike H sv -> gone 0 (sv_trace sv) = false -> sv_conns sv i = Some co -> key_done H sv i KEof co.
Proof.
  intros Hw Hns Hco. destruct (desk_of H sv i co Hw Hns Hco) as (u & Hu & Hd). pose proof Hw as (Hr & Hst & Hfine & Hc & Hl & Hn & Hcl & Hnew).
  pose proof (fun c2 => press_eof _ (dep co) _ _ _ _ _ _ c2 Hd) as Hp. unfold who in Hu. destruct (c_exit co) eqn:Hx; destruct Hu as (Hu & Hla).
  - exists (fun _ => []), (inr Crash). split; [eapply m_late_eof; exact Hla|]. unfold keyed, run_key. cbn zeta. change (WholeModel.depth F co) with (dep co). rewrite Hc. destruct (Hp (o_colour (l_house H))) as (x & p' & ->).
    destruct (Hp (cx_color (w_trace (p_world p')))) as (x' & p2 & ->). eauto.
  - exists (for_one i (goodbye i)). eexists (inl _). split; [eapply m_eof; [reflexivity|exact Hu]|].
    set (evs := EvOut i [] :: farewell i) in *. cbn [proc_of p_world w_trace w_next w_store p_term] in Hp.
    set (p := mkProc _ _) in Hp. assert (Hq : existsb (fun e => match e with EvCall _ _ _ => true | _ => false end) evs = false) by reflexivity.
    destruct (color_quiet (sv_trace sv) evs Hq) as (Q1 & Q2 & Q3). destruct Hd as (_ & (_ & _ & Hpg & Hdr) & Hok & (Hh & Hm) & Hg & _ & Hgi & _).
    assert (Hgj : forall j, gone j evs = Nat.eqb i j) by (intros j; cbn; rewrite !orb_false_r; reflexivity).
    exists p, evs. split; [|split; [reflexivity|split]].
    + eapply run_key_ok; [rewrite Hc; apply Hp|rewrite Hc; apply Hp|reflexivity|exact Q2].
    + apply (wlike_key H sv i co p evs); try assumption; unfold p; cbn [l_house departs o_colour o_gone o_saved o_users o_count o_closed p_world ext w_root w_trace w_store w_cur w_hist w_exit p_term proc_of].
      * reflexivity.
      * reflexivity.
      * split; [exact Q2|]. rewrite <- Hc. exact Q3.
      * right. eexists. split; [reflexivity|]. split; [reflexivity|]. apply (fine_typed i), Hok.
      * intros j Hj. rewrite Hgj. apply Nat.eqb_neq. congruence.
      * same.
      * reflexivity.
      * rewrite gone_app, Hns, Hgj. reflexivity.
      * exists u. cbn [c_exit c_cur c_hist c_term l_house l_late l_desks departs o_users]. unfold put, place_user. rewrite Nat.eqb_refl, gone_app, Hgj, Nat.eqb_refl, orb_true_r.
        split; [split; reflexivity|]. repeat (split; [first [reflexivity|assumption|split; [reflexivity|split; [assumption|assumption]]]|]). exact Hm.
    + pose proof (saw_leave H KEof i (sv_trace sv) [EvOut i []] []) as Hs. cbn [app] in Hs. rewrite app_nil_r in Hs.
      assert (Hf : for_user i [EvOut i []] = []) by (cbn; rewrite Nat.eqb_refl; reflexivity). rewrite Hf in Hs. apply Hs; try reflexivity.
      * unfold there. rewrite Hu. reflexivity.
      * intros j Hj. split; [|reflexivity]. cbn. destruct (Nat.eqb i j); reflexivity.
Qed.

Lemma ret_user j i evs s : for_user j (after_ret i evs s) = if Nat.eqb i j then ["013"; "010"]%char ++ for_user j evs ++ s else for_user j evs.
Proof. unfold after_ret. rewrite !for_user_app. cbn [for_user flat_map]. destruct (Nat.eqb i j); cbn [app]; rewrite !app_nil_r; reflexivity. Qed.
Lemma ret_all i evs s : for_all (after_ret i evs s) = for_all evs.
Proof. unfold after_ret. rewrite !for_all_app. cbn [for_all flat_map app]. rewrite app_nil_r. reflexivity. Qed.
Lemma ret_gone j i evs s : gone j (after_ret i evs s) = gone j evs.
Proof. unfold after_ret. rewrite !gone_app. cbn. apply orb_false_r. Qed.
Lemma ret_quiet c i evs s c' : quiet_call c evs c' -> quiet_call c (after_ret i evs s) c'.
Proof.
  intros (H1 & H2). unfold after_ret. split; [rewrite !existsb_app, H1; reflexivity|]. rewrite !fold_left_app. cbn [fold_left paint]. exact H2.
Qed.
Lemma ret_audible i evs s : audible i (after_ret i evs s) = ["013"; "010"]%char ++ audible i evs ++ s.
Proof. unfold after_ret. rewrite !audible_app. unfold audible at 1 3. cbn. rewrite Nat.eqb_refl, !app_nil_r. reflexivity. Qed.
Hypothesis Hdeep : deep <= fuel.
Lemma key_ret H sv i co : wlike H sv -> gone 0 (sv_trace sv) = false -> sv_conns sv i = Some co -> key_done H sv i KRet co.
Proof.
  intros Hw Hns Hco. destruct (desk_of H sv i co Hw Hns Hco) as (u & Hu & Hd). unfold who in Hu. pose proof Hw as (Hr & Hst & Hfine & Hc & Hl & Hn & Hcl & Hnew).
  assert (Hdp : deep <= dep co) by (unfold dep, WholeModel.depth; lia).
  destruct (press_ret _ (dep co) _ _ _ _ _ _ Hdp Hd) as [(Hans & Hff)|(rep & Hans & Hrep)].
  { exists (fun _ => []), (inr Endless). split.
    - eapply m_endless; [reflexivity|destruct (c_exit co); destruct Hu as (Hu & Hla); [right; exact Hla|left; exact Hu]|exact Hans].
    - unfold keyed, run_key. cbn zeta. change (WholeModel.depth F co) with (dep co). rewrite Hc, !Hff. reflexivity. }
  destruct Hd as (_ & _ & Hok & (Hh & Hm) & Hg & _ & Hgi & Hi0). change (p_term (proc_of sv i co)) with (c_term co) in Hm. destruct (l_desks H i) as [e marks page] eqn:Hdesk. cbn [d_line d_marks d_page] in *. cbn [proc_of p_world w_trace] in Hgi.
  destruct rep as [own all u' c' g' lf|].
  2: { exists (fun _ => []), (inr Undef). split.
    - eapply m_breaks; [reflexivity|destruct (c_exit co); destruct Hu as (Hu & Hla); [right; exact Hla|left; exact Hu]|]. rewrite Hdesk. exact Hans.
    - unfold keyed, run_key. cbn zeta. change (WholeModel.depth F co) with (dep co). rewrite Hc. match goal with |- context[mkStroke KRet _ (match ?x with _ => _ end)] => set (c2 := match x with POk _ => _ | PExc _ _ => _ | PUB => _ | PFuel => _ end) end.
      destruct (Hrep c2) as [->|(p' & evs & -> & Ht & Hov)]; [reflexivity|]. change (w_trace (p_world (proc_of sv i co))) with (sv_trace sv) in Ht. rewrite Ht, skip_app, Hov. reflexivity. }
  destruct Hrep as (Hu' & evs & page' & Ht & Hq & Hpa & Hpg' & Hdr' & Hlp & Hp). cbn [proc_of p_world w_trace w_next w_store p_term] in Hp.
  set (shown c2 := if lf || c_exit co then [] else prompt_shown c2 marks (u_place u')).
  set (p2 c2 := mkProc (mkWorld (root_of c' g') (sv_next sv) (if lf && negb (c_exit co) then st_store (sv_store sv) (lastn (u_typed u') (u_lines u')) else sv_store sv)
    i (cid (u_place u')) (hist_at (size i) u' page') (lf || c_exit co) (sv_trace sv ++ after_ret i evs (shown c2))) (mkTerm [] 0 (if lf || c_exit co then tm_force (c_term co) else c2 || tm_force (c_term co)))).
  change (forall c2, press (env_of i) (dep co) (tty_of i) (mkStroke KRet (o_colour (l_house H)) c2) (proc_of sv i co) = POk (p2 c2)) in Hp.
  assert (Hkey : run_key P rc pc net F tty i KRet co sv = VOk (after_key E net sv i co (p2 c'))).
  { eapply (run_key_ok i KRet co sv (p2 (o_colour (l_house H)))); rewrite ?Hc; [apply Hp| |reflexivity|apply (ret_quiet _ i _ (shown c') _ Hq)].
    unfold p2 at 1. cbn [p_world w_trace]. rewrite (color_app _ _ _ Hc). rewrite (proj2 (ret_quiet _ i _ (shown (o_colour (l_house H))) _ Hq)). apply Hp. }
  pose proof (answers_one _ _ _ _ _ _ _ _ _ Hans) as Hone. cbn beta iota in Hone.
  destruct (c_exit co) eqn:Hx; destruct Hu as (Hu & Hla).
  - (* late *)
    assert (Hev : (forall j, j <> i -> for_user j evs = [] /\ gone j evs = false) /\ for_all evs = all).
    { unfold told in Ht. destruct lf.
      - destruct Ht as ((Ht1 & Ht2) & _ & -> & ->). split; [|reflexivity]. intros j Hj. split; [apply Ht1; congruence|]. apply (gone_only i); [congruence|exact Ht2].
      - destruct Ht as (Ht1 & Ht2 & Ht3). split; [|exact Ht2]. intros j Hj. split; [rewrite Ht1; destruct (Nat.eqb_spec i j); congruence|]. apply gone_exit, Ht3. }
    destruct Hev as (Hev1 & Hev2). exists (for_present (l_house H) all). eexists (inl _). split; [eapply m_late_enters; eauto|].
    exists (p2 c'), (after_ret i evs (shown c')). split; [exact Hkey|]. split; [reflexivity|]. split.
    + apply (wlike_key H sv i co (p2 c') (after_ret i evs (shown c'))); try assumption; unfold p2; cbn [l_house stays o_colour o_gone o_saved o_users o_count o_closed p_world w_root w_trace w_store w_cur w_hist w_exit p_term proc_of].
      * reflexivity.
      * reflexivity.
      * apply ret_quiet, Hq.
      * left. rewrite andb_false_r. split; reflexivity.
      * intros j Hj. rewrite ret_gone. apply Hev1, Hj.
      * same.
      * reflexivity.
      * rewrite gone_app, ret_gone, Hcl. destruct (Hev1 0) as (_ & ->); [intros Hz; apply (Hi0 eq_refl); congruence|]. symmetry. apply orb_false_r.
      * exists u'. cbn [c_exit c_cur c_hist c_term l_house l_late l_desks stays o_users]. unfold put, place_user. rewrite Nat.eqb_refl, orb_true_r, gone_app, Hgi.
        split; [split; reflexivity|]. repeat (split; [first [reflexivity|assumption|split; [reflexivity|split; [assumption|assumption]]]|]). split; [split; reflexivity|]. split; [split; [right; constructor|intros []]|]. cbn [d_marks tm_force]. exact Hm.
    + apply (saw_quiet _ _ i).
      * intros j Hj. rewrite ret_user, ret_gone. destruct (Nat.eqb_spec i j); [congruence|]. apply Hev1, Hj.
      * unfold there. rewrite Hu. discriminate.
      * right. exact Hgi.
      * intros j Hj Hth. rewrite ret_all, Hev2. unfold for_present. unfold there in Hth. destruct (o_users (l_house H) j); [reflexivity|discriminate].
      * intros j Hth. unfold for_present. unfold there in Hth. destruct (o_users (l_house H) j); [discriminate|reflexivity].
  - destruct lf.
    + (* leaves *)
      pose proof (Hlp eq_refl) as Hpn. subst page'. destruct Ht as (Hev & -> & -> & _). change (evs = farewell i) in Hev. subst evs. exists (for_one i (["013"; "010"]%char ++ goodbye i)). eexists (inl _). split; [eapply m_exits; eauto|].
      exists (p2 c'), (after_ret i (farewell i) (shown c')). split; [exact Hkey|]. split; [reflexivity|].
      assert (Hgj : forall j, gone j (after_ret i (farewell i) (shown c')) = Nat.eqb i j) by (intros j; rewrite ret_gone; cbn; rewrite !orb_false_r; reflexivity). split.
      * apply (wlike_key H sv i co (p2 c') (after_ret i (farewell i) (shown c'))); try assumption; unfold p2; cbn [l_house departs o_colour o_gone o_saved o_users o_count o_closed p_world w_root w_trace w_store w_cur w_hist w_exit p_term proc_of].
        -- reflexivity.
        -- reflexivity.
        -- right. eexists. split; [reflexivity|]. split; [reflexivity|]. apply (fine_typed i), Hu'.
        -- intros j Hj. rewrite Hgj. apply Nat.eqb_neq. congruence.
        -- same.
        -- reflexivity.
        -- rewrite gone_app, Hns, Hgj. reflexivity.
        -- exists u'. cbn [c_exit c_cur c_hist c_term l_house l_late l_desks departs o_users]. unfold put, place_user. rewrite Nat.eqb_refl, gone_app, Hgj, Nat.eqb_refl, orb_true_r.
           split; [split; reflexivity|]. repeat (split; [first [reflexivity|assumption|split; [reflexivity|split; [assumption|assumption]]]|]). split; [split; reflexivity|]. split; [split; [right; constructor|intros []]|]. exact Hm.
      * pose proof (saw_leave H KRet i (sv_trace sv) [EvOut i ["013"; "010"]%char; EvInput i false] [EvOut i []; EvInput i true]) as Hs.
        assert (Hf : for_user i [EvOut i ["013"; "010"]%char; EvInput i false] = ["013"; "010"]%char) by (cbn; rewrite Nat.eqb_refl; reflexivity). rewrite Hf in Hs. apply Hs; try reflexivity.
        -- unfold there. rewrite Hu. reflexivity.
        -- intros j Hj. split; [|reflexivity]. cbn. destruct (Nat.eqb_spec i j); [congruence|reflexivity].
        -- cbn. destruct (Nat.eqb i i); reflexivity.
    + (* stays *)
      destruct Ht as (Ht1 & Ht2 & Ht3). eexists. eexists (inl _). split; [eapply m_enters; eauto|].
      exists (p2 c'), (after_ret i evs (shown c')). split; [exact Hkey|]. split; [reflexivity|]. split.
      * apply (wlike_key H sv i co (p2 c') (after_ret i evs (shown c'))); try assumption; unfold p2; cbn [l_house stays o_colour o_gone o_saved o_users o_count o_closed p_world w_root w_trace w_store w_cur w_hist w_exit p_term proc_of].
        -- reflexivity.
        -- reflexivity.
        -- apply ret_quiet, Hq.
        -- left. split; reflexivity.
        -- intros j Hj. rewrite ret_gone. apply gone_exit, Ht3.
        -- same.
        -- reflexivity.
        -- rewrite gone_app, ret_gone, Hcl, (gone_exit 0 evs Ht3). symmetry. apply orb_false_r.
        -- exists u'. cbn [c_exit c_cur c_hist c_term l_house l_late l_desks stays o_users orb]. unfold put, place_user. rewrite Nat.eqb_refl, gone_app, ret_gone, Hgi, (gone_exit i evs Ht3).
           split; [split; [reflexivity|exact Hla]|]. repeat (split; [first [reflexivity|assumption|split; [reflexivity|split; [assumption|assumption]]]|]). split; [split; reflexivity|]. split; [split; [right; constructor|intros []]|].
           cbn [d_marks tm_force]. rewrite Hm. destruct c', (tm_force (c_term co)), (tty_of i); reflexivity.
      * apply (saw_quiet _ _ i).
        -- intros j Hj. rewrite ret_user, ret_gone, Ht1. destruct (Nat.eqb_spec i j); [congruence|]. split; [reflexivity|apply gone_exit, Ht3].
        -- intros _. split; [rewrite ret_gone; apply gone_exit, Ht3|]. rewrite ret_audible. unfold put. rewrite Nat.eqb_refl. unfold shown. cbn [orb].
           f_equal. rewrite app_assoc. f_equal. destruct Hone as [->| ->].
           ++ rewrite audible_all by (rewrite Ht1, Nat.eqb_refl; reflexivity). symmetry. exact Ht2.
           ++ rewrite audible_user by exact Ht2. rewrite Ht1, Nat.eqb_refl, app_nil_r. reflexivity.
        -- left. unfold there. rewrite Hu. reflexivity.
        -- intros j Hj Hth. rewrite ret_all, Ht2. unfold put. apply Nat.eqb_neq in Hj. rewrite Hj. unfold for_present. unfold there in Hth. destruct (o_users (l_house H) j); [reflexivity|discriminate].
        -- intros j Hth. unfold put. unfold there in Hth. destruct (Nat.eqb_spec j i) as [->|_]; [rewrite Hu in Hth; discriminate|]. unfold for_present. destruct (o_users (l_house H) j); [discriminate|reflexivity].
Qed.
Lemma key_step H sv i k co : wlike H sv -> gone 0 (sv_trace sv) = false -> sv_conns sv i = Some co -> ok_key P k -> key_done H sv i k co.
Proof.
  intros Hw Hns Hco Hk. destruct k; try (apply key_adjust; [assumption..|discriminate|discriminate]); [apply key_ret|apply key_eof]; assumption.
Qed.

(** ** One step of the program *)
Notation step := (w_step P rc pc net F tty).
Notation moved := (moved P rc pc net F tty).
Definition del1 (sid : nat) (x : winput) (sv : server) : str :=
  match x with
  | WNet (IRead j (RData chunk)) =>
      match sv_conns sv sid with Some c => if Nat.eqb j sid && c_reading c && negb (stopped (sv_trace sv)) then chunk else [] | None => [] end
  | _ => []
  end.
Definition rep1 (sid : nat) (x : winput) (sv : server) : list str :=
  match x with WNet i => if stopped (sv_trace sv) then [] else ServerSpec.replies E net sid i sv | _ => [] end.
Lemma run_key_shape i k co sv : match run_key P rc pc net F tty i k co sv with VOk sv' | VExc _ sv' => exists p, sv' = after_key E net sv i co p | VGone => False | _ => True end.
Proof.
  unfold run_key. cbn zeta. match goal with |- context[press ?a ?b ?c (mkStroke k ?x (match ?y with _ => _ end)) ?p] => destruct (press a b c (mkStroke k x _) p) as [p'|e p'| |] end; try exact Logic.I; [|eauto].
  destruct (existsb _ _); [exact Logic.I|eauto].
Qed.
Lemma flow_step sid x sv hs ds ss : sid <> 0 -> flows sid sv hs ds ss ->
  v_flows sid (step x sv) (hs ++ hits sid (moved x sv)) (ds ++ del1 sid x sv) (ss ++ rep1 sid x sv).
Proof.
  intros Hsid Hf. unfold w_step, WholeSpec.moved, del1, rep1. destruct (stopped (sv_trace sv)) eqn:Hs.
  { cbn [hits flat_map]. rewrite app_nil_r. replace (match x with WKey _ => [] | WNet _ => [] end) with (@nil str) by (destruct x; reflexivity).
    assert (Hd : match x with WNet (IRead j (RData chunk)) => match sv_conns sv sid with Some c => if Nat.eqb j sid && c_reading c && negb true then chunk else [] | None => [] end | _ => [] end = @nil ascii).
    { destruct x as [k|[|ok|j [chunk| |]]]; try reflexivity. destruct (sv_conns sv sid) as [c|]; [|reflexivity]. rewrite andb_false_r. reflexivity. }
    rewrite Hd, !app_nil_r. exact Hf. }
  destruct x as [k|i].
  - cbn [hits flat_map]. rewrite !app_nil_r. destruct Hf as (Hf & Hn). split; [|exact Hn]. cbn [set_conns sv_conns sv_queue]. apply flow_app; [|exact Hf].
    cbn. destruct sid; [contradiction|reflexivity].
  - pose proof (flows_step E net 100 F false flags sid i sv hs ds ss Hf) as Hst.
    assert (Hgen : (match i, sv_queue sv with IRun, TkKey _ _ :: _ => False | _, _ => True end) ->
      v_flows sid (sv_step E net 100 F false flags i sv) hs
        (ds ++ match i with IRead j (RData chunk) => match sv_conns sv sid with Some c => if Nat.eqb j sid && c_reading c && negb false then chunk else [] | None => [] end | _ => [] end)
        (ss ++ replies E net sid i sv)).
    { intros Hk. match goal with |- v_flows _ _ _ ?d _ => match type of Hst with v_flows _ _ ?h ?d' _ => replace h with hs in Hst; [replace d with d'; [exact Hst|]|] end end.
      - f_equal. destruct i as [|ok|j [chunk| |]]; try reflexivity. destruct (sv_conns sv sid); [|reflexivity]. rewrite andb_true_r. reflexivity.
      - symmetry. rewrite <- (app_nil_r hs) at 2. f_equal. destruct i; try reflexivity. destruct (sv_queue sv) as [|[j k|j r|ok] q]; try reflexivity. contradiction. }
    destruct i as [|ok|j r].
    + destruct (sv_queue sv) as [|[j k|j r|ok] q] eqn:Hq.
      * cbn [hits flat_map]. rewrite (app_nil_r hs). apply Hgen. exact Logic.I.
      * cbn [hits flat_map]. rewrite app_nil_r, (app_nil_r ds). replace (replies E net sid IRun sv) with (@nil str) by (unfold replies; rewrite Hq; destruct (sv_conns sv sid); reflexivity). rewrite (app_nil_r ss).
        destruct (sv_conns sv j) as [c|] eqn:Hc; [|exact Logic.I].
        pose proof (run_key_shape j k c (set_conns (sv_conns sv) q sv)) as Hsh. destruct (run_key _ _ _ _ _ _ _ _ _ _) as [sv'|e sv'| | |]; cbn [v_flows]; try exact Logic.I; destruct Hsh as (p & ->).
        -- apply flows_key; [exact Hc|]. destruct Hf as (Hf & Hn). split; [|exact Hn]. cbn [set_conns sv_conns sv_queue]. rewrite <- Hq. exact Hf.
        -- apply flows_key; [exact Hc|]. destruct Hf as (Hf & Hn). split; [|exact Hn]. cbn [set_conns sv_conns sv_queue]. rewrite <- Hq. exact Hf.
      * assert (Hh : hits sid (match sv_step E net 100 F false flags IRun sv with VOk sv' => match sv_conns sv' j with None => [Goes j] | Some _ => [] end | _ => [] end) = []).
        { destruct (sv_step _ _ _ _ _ _ _ _) as [sv'|e sv'| | |]; try reflexivity. destruct (sv_conns sv' j); reflexivity. }
        unfold w_step. rewrite Hs, Hq. rewrite Hh, (app_nil_r hs). apply Hgen. exact Logic.I.
      * replace (hits sid (if ok then [Arrives] else [])) with (@nil key) by (destruct ok; reflexivity). rewrite (app_nil_r hs). apply Hgen. exact Logic.I.
    + cbn [hits flat_map]. rewrite (app_nil_r hs). apply Hgen. exact Logic.I.
    + cbn [hits flat_map]. rewrite (app_nil_r hs). apply Hgen. exact Logic.I.
Qed.

(** The keys of the local session *)
Definition local (sv : server) (ps hs : list key) : Prop :=
  exists c ks, sv_conns sv 0 = Some c /\ c_reading c = false /\ mine 0 (sv_queue sv) = map (TkKey 0) ks /\ ps = hs ++ ks.
Definition pressed1 (x : winput) (sv : server) : list key := match x with WKey k => if stopped (sv_trace sv) then [] else [k] | _ => [] end.
Lemma local_same sv sv' ps hs : sv_conns sv' 0 = sv_conns sv 0 -> mine 0 (sv_queue sv') = mine 0 (sv_queue sv) -> local sv ps hs -> local sv' ps hs.
Proof. intros Hc Hq (c & ks & H1 & H2 & H3 & H4). exists c, ks. rewrite Hc, Hq. auto. Qed.
Lemma local_step x sv ps hs : (forall c, sv_conns sv 0 = Some c -> 0 < sv_sid sv) -> local sv ps hs ->
  match step x sv with VOk sv' => local sv' (ps ++ pressed1 x sv) (hs ++ hits 0 (moved x sv)) | _ => True end.
Proof.
  clear Hdeep Hstrict.
  intros Hpos Hl. pose proof Hl as (c & ks & Hc & Hr & Hm & Hps). unfold w_step, WholeSpec.moved, pressed1. destruct (stopped (sv_trace sv)) eqn:Hs.
  { cbn [hits flat_map]. replace (match x with WKey _ => [] | WNet _ => [] end) with (@nil key) by (destruct x; reflexivity). rewrite !app_nil_r. exact Hl. }
  destruct x as [k|i].
  { cbn [hits flat_map]. rewrite app_nil_r. exists c, (ks ++ [k]). cbn [set_conns sv_conns sv_queue]. rewrite mine_app, Hm. cbn. rewrite map_app, Hps, app_assoc. auto. }
  rewrite (app_nil_r ps). destruct i as [|ok|j r].
  - destruct (sv_queue sv) as [|[j k|j r|ok] q] eqn:Hq.
    + cbn [hits flat_map sv_step]. rewrite Hq. rewrite app_nil_r. exact Hl.
    + destruct (sv_conns sv j) as [cj|] eqn:Hcj; [|exact Logic.I].
      pose proof (run_key_shape j k cj (set_conns (sv_conns sv) q sv)) as Hsh. destruct (run_key _ _ _ _ _ _ _ _ _ _) as [sv'|e sv'| | |]; try exact Logic.I. destruct Hsh as (p & ->).
      cbn [hits flat_map]. rewrite app_nil_r. unfold after_key. cbn [sv_conns sv_queue set_conns]. cbn [mine filter of_sid] in Hm. destruct (Nat.eqb_spec j 0) as [->|Hne].
      * rewrite Hc in Hcj. injection Hcj as <-. destruct ks as [|k' ks]; [discriminate|]. injection Hm as <- Hm. exists (mkConn (c_dev c) (p_term p) (w_cur (p_world p)) (w_hist (p_world p)) (w_exit (p_world p)) (c_reading c && negb (c_reading c && closed E net 0 (w_trace (p_world p))))), ks.
        cbn [sv_conns sv_queue]. rewrite upd_conn_same. split; [reflexivity|]. cbn [c_reading]. rewrite Hr. split; [reflexivity|]. cbn [andb]. rewrite app_nil_r. split; [exact Hm|]. rewrite Hps, <- app_assoc. reflexivity.
      * rewrite app_nil_r. exists c, ks. cbn [sv_conns sv_queue]. rewrite upd_conn_other by congruence. split; [exact Hc|]. split; [exact Hr|]. split; [|exact Hps]. rewrite mine_app. fold (mine 0 q) in Hm. rewrite Hm.
        replace (mine 0 (if c_reading cj && closed E net j (w_trace (p_world p)) then [TkRead j RError] else [])) with (@nil task); [apply app_nil_r|]. destruct (c_reading cj && _); [|reflexivity]. cbn. destruct (Nat.eqb_spec j 0); [contradiction|reflexivity].
    + cbn [mine filter of_sid] in Hm. destruct (Nat.eqb_spec j 0) as [->|Hne]; [destruct ks; discriminate|]. fold (mine 0 q) in Hm.
      unfold w_step. rewrite Hs, Hq. cbn [sv_step]. rewrite Hq. cbn [run_task set_conns sv_conns]. destruct (sv_conns sv j) as [cj|] eqn:Hcj; [|exact Logic.I].
      match goal with |- local _ _ (hs ++ hits 0 ?m) => replace (hits 0 m) with (@nil key) by (destruct (sv_conns (run_read E net j r cj (set_conns (sv_conns sv) q sv)) j); reflexivity) end.
      rewrite app_nil_r. exists c, ks. unfold run_read. cbn [set_conns sv_trace sv_conns sv_queue].
      assert (H0 : forall o q', mine 0 q' = mine 0 q -> sv_conns (set_conns (upd_conn (sv_conns sv) j o) q' (set_conns (sv_conns sv) q sv)) 0 = Some c /\ c_reading c = false /\
        mine 0 (sv_queue (set_conns (upd_conn (sv_conns sv) j o) q' (set_conns (sv_conns sv) q sv))) = map (TkKey 0) ks /\ ps = hs ++ ks).
      { intros o q' Hq'. cbn [set_conns sv_conns sv_queue]. rewrite upd_conn_other by congruence. rewrite Hq'. auto. }
      destruct (closed E net j (sv_trace sv)); [apply H0; reflexivity|]. destruct r as [chunk| |]; try (apply H0; reflexivity).
      destruct (receive chunk (c_dev cj)) as (d & k2 & s2). apply H0. rewrite mine_app, mine_other by congruence. apply app_nil_r.
    + replace (hits 0 (if ok then [Arrives] else [])) with (@nil key) by (destruct ok; reflexivity). rewrite app_nil_r. cbn [sv_step]. rewrite Hq. cbn [run_task]. unfold run_accept. cbn [mine filter of_sid] in Hm. fold (mine 0 q) in Hm.
      cbn [set_conns sv_sid sv_root sv_next sv_store sv_trace sv_conns sv_queue]. destruct ok.
      * destruct (p_bind _ _) as [p|e p| |]; try exact Logic.I. exists c, ks. cbn [sv_conns sv_queue]. rewrite upd_conn_other by (specialize (Hpos c Hc); lia). auto.
      * exists c, ks. cbn [sv_conns sv_queue]. auto.
  - cbn [hits flat_map sv_step]. rewrite app_nil_r. destruct (sv_accepting sv); [|exact Hl]. exists c, ks. cbn [sv_conns sv_queue]. rewrite mine_app, Hm. cbn. rewrite app_nil_r. auto.
  - cbn [hits flat_map sv_step]. rewrite app_nil_r. destruct (sv_conns sv j) as [cj|] eqn:Hcj; [|exact Hl]. destruct (c_reading cj) eqn:Hrj; [|exact Hl].
    assert (Hj : j <> 0) by (intros ->; rewrite Hc in Hcj; injection Hcj as ->; congruence). exists c, ks. cbn [set_conns sv_conns sv_queue]. rewrite upd_conn_other by congruence. rewrite mine_app, Hm.
    split; [exact Hc|]. split; [exact Hr|]. split; [|exact Hps]. cbn. destruct (Nat.eqb_spec j 0); [contradiction|]. apply app_nil_r.
Qed.

(** *** Steps that change nothing but connections and the queue *)
Lemma wlike_quiet H sv sv' : wlike H sv -> sv_root sv' = sv_root sv -> sv_store sv' = sv_store sv -> sv_trace sv' = sv_trace sv -> sv_sid sv' = sv_sid sv ->
  (forall i, sv_conns sv' i = sv_conns sv i \/ exists c d rd, sv_conns sv i = Some c /\ sv_conns sv' i = Some (mkConn d (c_term c) (c_cur c) (c_hist c) (c_exit c) rd)) -> wlike H sv'.
Proof.
  intros (Hr & Hst & Hfine & Hc & Hl & Hn & Hcl & Hnew) E1 E2 E3 E4 Hconns. unfold wlike. rewrite E1, E2, E3, E4.
  repeat (split; [assumption|]). split; [|split; [assumption|split; [assumption|]]].
  - intros i. specialize (Hl i). destruct (Hconns i) as [->|(c & d & rd & H1 & ->)]; [exact Hl|]. rewrite H1 in Hl. exact Hl.
  - intros i Hi. destruct (Hnew i Hi) as (H1 & H2). split; [|exact H2]. destruct (Hconns i) as [->|(c & d & rd & H3 & _)]; [exact H1|]. congruence.
Qed.
(** A connection is over *)
Lemma wlike_goes H sv i q co : wlike H sv -> i <> 0 -> sv_conns sv i = Some co ->
  wlike (mkHall (stays (l_house H) i None (o_colour (l_house H)) (o_gone (l_house H))) (l_desks H) (put i None (l_late H))) (set_conns (upd_conn (sv_conns sv) i None) q sv).
Proof.
  intros (Hr & Hst & Hfine & Hc & Hl & Hn & Hcl & Hnew) Hi Hco. unfold wlike. cbn [l_house stays o_colour o_gone o_saved o_users o_count o_closed set_conns sv_root sv_store sv_trace sv_conns sv_sid].
  repeat (split; [assumption|]). split; [|split; [assumption|split; [assumption|]]].
  - intros j. unfold upd_conn. destruct (Nat.eqb_spec j i) as [->|Hne].
    + cbn [conn_like l_house stays o_users l_late]. unfold place_user, put. rewrite Nat.eqb_refl. auto.
    + specialize (Hl j). unfold conn_like in *. cbn [l_house stays o_users l_late l_desks]. unfold place_user, put. apply Nat.eqb_neq in Hne. rewrite Hne. exact Hl.
  - intros j Hj. destruct (Hnew j Hj) as (H1 & H2). split; [|exact H2]. unfold upd_conn. destruct (Nat.eqb j i); [reflexivity|exact H1].
Qed.
(** *** Someone comes *)
Lemma newcomer_like n c g st saved : Forall fine saved -> st_commands st = saved ->
  let w := open_session n (size n) (root_of c g) 0 st [] in
  clike (size n) c g (newcomer (size n) saved) w /\ uok (size n) (newcomer (size n) saved).
Proof.
  intros Hf Hs. cbn zeta. split; [|apply newcomer_ok, Hf]. unfold open_session. split; [reflexivity|]. split; [reflexivity|]. cbn [w_hist]. rewrite Hs. apply load_hist, room_pos.
Qed.
Definition arrived (H : hall) (marks : bool) : hall :=
  let h := l_house H in let n := o_count h in
  mkHall (mkHouse (o_colour h) (o_gone h) (o_saved h) (place_user n (Some (newcomer (size n) (o_saved h))) (o_users h)) (S n) (o_closed h))
    (put n (mkDesk blank_line (marks || o_colour h) None) (l_desks H)) (l_late H).
Lemma wlike_arrives H sv q evs rd acc : wlike H sv -> let n := sv_sid sv in let h := l_house H in
  gone 0 (sv_trace sv) = false -> (forall j, gone j evs = false) -> quiet_call (o_colour h) evs (o_colour h) ->
  wlike (arrived H (tty_of n))
    (mkServer (sv_root sv) (sv_next sv) (sv_store sv) (sv_trace sv ++ evs)
      (upd_conn (sv_conns sv) n (Some (mkConn dev_init (mkTerm [] 0 (o_colour h || false)) 10 (hist_of (size n) (newcomer (size n) (o_saved h))) false rd))) (S n) q acc).
Proof.
  clear Hdeep.
  intros (Hr & (f & Hf & Hs) & Hfine & Hc & Hl & Hn & Hcl & Hnew) n h Hg0 Hge (_ & Hq). unfold wlike, arrived. cbn [l_house o_colour o_gone o_saved o_users o_count o_closed sv_root sv_store sv_trace sv_conns sv_sid].
  fold h in Hn, Hr, Hs, Hfine, Hc, Hcl. fold h. rewrite <- Hn. fold n. split; [exact Hr|]. split; [exists f; auto|]. split; [exact Hfine|]. split; [rewrite (color_app _ _ _ Hc); exact Hq|]. split; [|split; [reflexivity|split]].
  - intros j. unfold upd_conn. destruct (Nat.eqb_spec j n) as [->|Hne].
    + destruct (Hnew n (le_n n)) as (Hcn & Hgn). pose proof (Hl n) as Hln. rewrite Hcn in Hln. destruct Hln as (_ & Hla).
      exists (newcomer (size n) (o_saved h)). cbn [c_exit c_cur c_hist c_term l_house l_late l_desks o_users]. unfold put, place_user. rewrite Nat.eqb_refl, gone_app, Hgn, Hge.
      split; [split; [reflexivity|exact Hla]|]. split; [reflexivity|]. split; [reflexivity|]. split; [split; [reflexivity|split; exact Logic.I]|]. split; [apply newcomer_ok, Hfine|]. split; [split; reflexivity|].
      split; [split; [right; constructor|intros []]|]. cbn [d_marks tm_force]. rewrite orb_false_r. apply orb_comm.
    + specialize (Hl j). unfold conn_like in *. cbn [l_house l_late l_desks o_users]. unfold put, place_user. apply Nat.eqb_neq in Hne. rewrite Hne, gone_app, Hge, orb_false_r. exact Hl.
  - rewrite gone_app, Hge, orb_false_r. exact Hcl.
  - intros j Hj. unfold upd_conn. destruct (Nat.eqb_spec j n) as [->|Hne]; [lia|]. destruct (Hnew j) as (H1 & H2); [lia|]. rewrite gone_app, H2, Hge. auto.
Qed.

(** *** Any step *)
Definition alive (sv : server) : Prop := (exists ps hs, local sv ps hs) /\ forall sid, sid <> 0 -> exists hs ds ss, flows sid sv hs ds ss.
Lemma alive_task sv t q i : alive sv -> sv_queue sv = t :: q -> of_sid i t = true -> exists c, sv_conns sv i = Some c.
Proof.
  intros ((ps & hs & c & ks & Hc & _) & Hf) Hq Ht. destruct (Nat.eq_dec i 0) as [->|Hne]; [eauto|]. destruct (Hf i Hne) as (hs' & ds & ss & (Hfl & _)).
  destruct (sv_conns sv i) as [ci|]; [eauto|]. destruct Hfl as (Hm & _). rewrite Hq in Hm. cbn [mine filter] in Hm. rewrite Ht in Hm. discriminate.
Qed.
Definition w_stepped (H : hall) (x : winput) (sv : server) : Prop :=
  (moved x sv = [] /\ exists sv', step x sv = VOk sv' /\ sv_trace sv' = sv_trace sv /\ wlike H sv') \/
  (exists m said res, moved x sv = [m] /\ moves (whole_complex rc) pc tty H m said res /\
   match res with
   | inl H' => exists sv' evs, step x sv = VOk sv' /\ sv_trace sv' = sv_trace sv ++ evs /\ wlike H' sv' /\ saw H m (sv_trace sv) evs said
   | inr Undef => step x sv = VUB
   | inr Crash => exists e sv', step x sv = VExc e sv'
   | inr Endless => step x sv = VFuel
   end).
Lemma accept_step H sv q : wlike H sv -> gone 0 (sv_trace sv) = false -> 0 < sv_sid sv -> let n := sv_sid sv in let h := l_house H in
  run_accept E net 100 false flags true (set_conns (sv_conns sv) q sv) =
  VOk (mkServer (sv_root sv) (sv_next sv) (sv_store sv) (sv_trace sv ++ map (EvOut n) [hello; prompt_shown (o_colour h) false Main])
      (upd_conn (sv_conns sv) n (Some (mkConn dev_init (mkTerm [] 0 (o_colour h || false)) 10 (hist_of (size n) (newcomer (size n) (o_saved h))) false true))) (S n) q true).
Proof.
  clear Hdeep.
  intros (Hr & (f & Hf & Hs) & Hfine & Hc & Hl & Hn & Hcl & Hnew) Hg0 Hpos n h. assert (Hsz : size n = 100) by (unfold n; destruct (sv_sid sv); [lia|reflexivity]).
  unfold run_accept. cbn [set_conns sv_sid sv_root sv_next sv_store sv_trace sv_conns sv_queue]. fold n. unfold session_enter. cbn [telnet_env e_has cx_env h_bind of_hres p_bind].
  unfold p_prompt. cbn [p_world p_term term_init tm_force tm_line tm_pos]. change (fst (flags (sv_trace sv))) with (cx_color (sv_trace sv)). rewrite Hc.
  destruct (newcomer_like n (o_colour h) (o_gone h) (sv_store sv) (o_saved h) Hfine) as (Hk & _); [rewrite Hf; exact Hs|].
  rewrite (prompt_at false (o_colour h) false (o_colour h) (o_gone h) (newcomer (size n) (o_saved h))).
  2: { destruct Hk as (K1 & K2 & K3). split; [exact Hr|]. cbn [out log w_cur open_session]. rewrite Hr. reflexivity. }
  cbn [out log w_exit open_session p_out p_world p_term w_root w_next w_store w_trace w_sid w_cur w_hist]. unfold p_out, out, log. cbn [p_world p_term w_root w_next w_store w_trace w_sid w_cur w_hist w_exit].
  destruct Hk as (_ & _ & K3). cbn [open_session w_hist] in K3. rewrite Hsz in K3. rewrite K3, Hsz, Hr. cbn [map app]. rewrite <- app_assoc. reflexivity.
Qed.
Lemma step_all H x sv : wlike H sv -> alive sv -> Forall (ok_move P) (moved x sv) -> w_stepped H x sv.
Proof.
  intros Hw Hal Hok. pose proof Hal as ((ps & hs & c0 & ks0 & Hc0 & Hr0 & Hm0 & _) & Hfl). pose proof Hw as (Hr & Hst & Hfine & Hc & Hl & Hn & Hcl & Hnew).
  assert (Hpos : 0 < sv_sid sv) by (destruct (sv_sid sv) as [|n] eqn:Hz; [|lia]; destruct (Hnew 0) as (Hx & _); [lia|]; congruence).
  destruct (stopped (sv_trace sv)) eqn:Hs.
  { left. unfold WholeSpec.moved, w_step. rewrite Hs. split; [reflexivity|]. exists sv. auto. }
  assert (Hg0 : gone 0 (sv_trace sv) = false) by (rewrite <- stopped_gone; exact Hs).
  assert (Hquiet : forall sv', moved x sv = [] -> step x sv = VOk sv' -> sv_trace sv' = sv_trace sv -> wlike H sv' -> w_stepped H x sv) by (intros; left; split; eauto).
  destruct x as [k|i].
  { eapply Hquiet; [unfold WholeSpec.moved; rewrite Hs; reflexivity|unfold w_step; rewrite Hs; reflexivity|reflexivity|]. apply (wlike_quiet H sv); try reflexivity; [exact Hw|]. intros i. left. reflexivity. }
  destruct i as [|ok|j r].
  - destruct (sv_queue sv) as [|[i k|i r|ok] q] eqn:Hq.
    + eapply (Hquiet sv); [unfold WholeSpec.moved; rewrite Hs, Hq; reflexivity|unfold w_step; rewrite Hs, Hq; cbn [sv_step]; rewrite Hq; reflexivity|reflexivity|exact Hw].
    + destruct (alive_task sv _ _ i Hal Hq) as (c & Hci); [cbn; apply Nat.eqb_refl|].
      assert (Hmv : moved (WNet IRun) sv = [Hits i k]) by (unfold WholeSpec.moved; rewrite Hs, Hq; reflexivity). rewrite Hmv in Hok. inversion Hok as [|? ? Hk _]; subst. cbn [ok_move] in Hk.
      assert (Hw0 : wlike H (set_conns (sv_conns sv) q sv)) by (apply (wlike_quiet H sv); try reflexivity; [exact Hw|]; intros i'; left; reflexivity).
      destruct (key_step H (set_conns (sv_conns sv) q sv) i k c Hw0 Hg0 Hci Hk) as (said & res & Hmoves & Hkey).
      assert (Hstep : step (WNet IRun) sv = run_key P rc pc net F tty i k c (set_conns (sv_conns sv) q sv)) by (unfold w_step; rewrite Hs, Hq, Hci; reflexivity).
      right. exists (Hits i k), said, res. split; [exact Hmv|]. split; [exact Hmoves|]. unfold keyed in Hkey. rewrite Hstep. destruct res as [H'|[| |]]; [|exact Hkey|exact Hkey|exact Hkey].
      destruct Hkey as (p & evs & -> & Ht & Hw' & Hsaw). do 2 eexists. split; [reflexivity|]. split; [exact Ht|]. split; [exact Hw'|exact Hsaw].
    + assert (Hi : i <> 0). { intros ->. try rewrite Hq in Hm0. cbn in Hm0. destruct ks0; discriminate. }
      destruct (alive_task sv _ _ i Hal Hq) as (c & Hci); [cbn; apply Nat.eqb_refl|].
      assert (Hstep : step (WNet IRun) sv = VOk (run_read E net i r c (set_conns (sv_conns sv) q sv))) by (unfold w_step; rewrite Hs, Hq; cbn [sv_step]; rewrite Hq; cbn [run_task set_conns sv_conns]; rewrite Hci; reflexivity).
      assert (Hgoes : run_read E net i r c (set_conns (sv_conns sv) q sv) = set_conns (upd_conn (sv_conns sv) i None) q (set_conns (sv_conns sv) q sv) -> w_stepped H (WNet IRun) sv).
      { intros He. right. exists (Goes i), (fun _ => []). eexists (inl _). split; [|split; [apply m_goes; [reflexivity|exact Hi]|]].
        - unfold WholeSpec.moved. rewrite Hs, Hq, Hstep, He. cbn [set_conns sv_conns]. rewrite upd_conn_same. reflexivity.
        - rewrite Hstep, He. exists (set_conns (upd_conn (sv_conns sv) i None) q (set_conns (sv_conns sv) q sv)), []. split; [reflexivity|]. split; [symmetry; apply app_nil_r|]. split; [exact (wlike_goes H sv i q c Hw Hi Hci)|].
          intros j. destruct (there H (Goes i) j); [|auto]. destruct (Nat.eqb j 0); [reflexivity|]. cbn. auto. }
      unfold run_read in *. cbn [set_conns sv_conns sv_trace sv_queue] in *. destruct (closed E net i (sv_trace sv)); [apply Hgoes; reflexivity|].
      destruct r as [chunk| |]; try (apply Hgoes; reflexivity). destruct (receive chunk (c_dev c)) as [d [k2 s2]]. eapply Hquiet; [|exact Hstep|reflexivity|].
      * unfold WholeSpec.moved. rewrite Hs, Hq, Hstep. cbn [set_conns sv_conns]. rewrite upd_conn_same. reflexivity.
      * apply (wlike_quiet H sv); try reflexivity; [exact Hw|]. intros j. cbn [set_conns sv_conns]. unfold upd_conn. destruct (Nat.eqb_spec j i) as [->|]; [right; do 3 eexists; split; [exact Hci|reflexivity]|left; reflexivity].
    + assert (Hstep : step (WNet IRun) sv = run_accept E net 100 false flags ok (set_conns (sv_conns sv) q sv)) by (unfold w_step; rewrite Hs, Hq; cbn [sv_step]; rewrite Hq; reflexivity).
      destruct ok.
      * right. exists Arrives. do 2 eexists. split; [unfold WholeSpec.moved; rewrite Hs, Hq; reflexivity|]. split; [apply (m_arrives _ _ _ H (l_house H) (sv_sid sv) (tty_of (sv_sid sv))); [reflexivity|exact Hn|]|].
        { unfold WholeModel.tty_of. destruct (Nat.eqb (sv_sid sv) 0); reflexivity. }
        assert (Htty : tty_of (sv_sid sv) = false) by (unfold WholeModel.tty_of; destruct (sv_sid sv); [lia|reflexivity]).
        assert (Hz : Nat.eqb (sv_sid sv) 0 = false) by (destruct (sv_sid sv); [lia|reflexivity]).
        rewrite Hstep, (accept_step H sv q Hw Hg0 Hpos). destruct (only_outs (sv_sid sv) [hello; prompt_shown (o_colour (l_house H)) false Main]) as (O1 & O2 & O3 & O4 & O5).
        set (evs := map (EvOut (sv_sid sv)) [hello; prompt_shown (o_colour (l_house H)) false Main]) in *. destruct (color_quiet (sv_trace sv) evs O5) as (Q1 & Q2 & Q3). do 2 eexists. split; [reflexivity|]. split; [reflexivity|]. split.
        -- pose proof (wlike_arrives H sv q evs true true Hw Hg0) as Ha. cbn zeta in Ha. unfold arrived in Ha. rewrite <- Hn in Ha. apply Ha.
           ++ intros j. destruct (Nat.eq_dec j (sv_sid sv)) as [->|Hne]; [exact O2|apply O1, Hne].
           ++ split; [exact Q2|]. rewrite <- Hc. exact Q3.
        -- rewrite Htty, Hz. apply (saw_quiet _ _ (sv_sid sv)).
           ++ exact O1.
           ++ intros _. split; [exact O2|]. rewrite O4. unfold for_one. rewrite Nat.eqb_refl. cbn [concat]. rewrite app_nil_r. reflexivity.
           ++ left. unfold there. rewrite Hn, Nat.eqb_refl. destruct (o_users _ _); reflexivity.
           ++ intros j Hj _. rewrite O3. unfold for_one. apply Nat.eqb_neq in Hj. rewrite Hj. reflexivity.
           ++ intros j Hj. unfold for_one. destruct (Nat.eqb_spec j (sv_sid sv)) as [->|_]; [|reflexivity]. unfold there in Hj. rewrite Hn, Nat.eqb_refl in Hj. destruct (o_users _ _); discriminate.
      * eapply Hquiet; [unfold WholeSpec.moved; rewrite Hs, Hq; reflexivity|exact Hstep|reflexivity|]. apply (wlike_quiet H sv); try reflexivity; [exact Hw|]. intros i. left. reflexivity.
  - assert (Hmv : moved (WNet (IConnect ok)) sv = []) by (unfold WholeSpec.moved; rewrite Hs; destruct (sv_queue sv); reflexivity).
    assert (Hstep : step (WNet (IConnect ok)) sv = sv_step E net 100 F false flags (IConnect ok) sv) by (unfold w_step; rewrite Hs; destruct (sv_queue sv); reflexivity).
    cbn [sv_step] in Hstep. destruct (sv_accepting sv); (eapply Hquiet; [exact Hmv|exact Hstep|reflexivity|]); [|exact Hw].
    apply (wlike_quiet H sv); try reflexivity; [exact Hw|]. intros i. left. reflexivity.
  - assert (Hmv : moved (WNet (IRead j r)) sv = []) by (unfold WholeSpec.moved; rewrite Hs; destruct (sv_queue sv); reflexivity).
    assert (Hstep : step (WNet (IRead j r)) sv = sv_step E net 100 F false flags (IRead j r) sv) by (unfold w_step; rewrite Hs; destruct (sv_queue sv); reflexivity).
    cbn [sv_step] in Hstep. destruct (sv_conns sv j) as [cj|] eqn:Hcj; [destruct (c_reading cj)|]; (eapply Hquiet; [exact Hmv|exact Hstep|reflexivity|]); try exact Hw.
    apply (wlike_quiet H sv); try reflexivity; [exact Hw|]. intros i. cbn [set_conns sv_conns]. unfold upd_conn. destruct (Nat.eqb_spec i j) as [->|]; [right; do 3 eexists; split; [exact Hcj|reflexivity]|left; reflexivity].
Qed.

(** *** What is sent to a client *)
Definition wired (j : nat) (sv : server) (k : sock) (outs : list (nat -> str)) (ss : list str) : Prop :=
  if j <? sv_sid sv then exists ps, sk_sent k = flat_map piece_bytes ps /\ texts ps = view j outs /\ replies_in ps = ss /\ sk_left k = if gone j (sv_trace sv) then Some 0 else None
  else k = sock_init /\ view j outs = [] /\ ss = [].
Lemma view_app j a b : view j (a ++ b) = view j a ++ view j b.
Proof. apply flat_map_app. Qed.
Lemma view_one j said : view j [said] = said j.
Proof. apply app_nil_r. Qed.
Lemma moves_count H m said H' : moves (whole_complex rc) pc tty H m said (inl H') ->
  o_count (l_house H') = match m with Arrives => S (o_count (l_house H)) | _ => o_count (l_house H) end.
Proof. intros Hm. inversion Hm; subst; reflexivity. Qed.
Lemma skip_trace (tr evs : list event) : skipn (length tr) (tr ++ evs) = evs.
Proof. rewrite skipn_app, skipn_all, Nat.sub_diag. reflexivity. Qed.

Lemma moved_replies x sv m j : alive sv -> moved x sv = [m] -> rep1 j x sv = [].
Proof.
  intros Hal. unfold WholeSpec.moved, rep1. destruct x as [k|i]; [reflexivity|]. destruct (stopped (sv_trace sv)) eqn:Hs; [reflexivity|]. unfold replies.
  destruct i as [|ok|j' r]; try reflexivity. destruct (sv_queue sv) as [|[i k|i r|ok] q] eqn:Hq; try reflexivity.
  destruct (alive_task sv _ _ i Hal Hq) as (c & Hci); [cbn; apply Nat.eqb_refl|].
  assert (Hstep : step (WNet IRun) sv = VOk (run_read E net i r c (set_conns (sv_conns sv) q sv))) by (unfold w_step; rewrite Hs, Hq; cbn [sv_step]; rewrite Hq; cbn [run_task set_conns sv_conns]; rewrite Hci; reflexivity).
  rewrite Hstep. unfold run_read. cbn [set_conns sv_conns sv_trace sv_queue]. destruct r as [chunk| |]; try reflexivity. destruct (sv_conns sv j) as [cj|]; [|reflexivity].
  destruct (Nat.eqb_spec i j) as [->|Hne]; [|reflexivity]. destruct (closed E net j (sv_trace sv)); [reflexivity|]. destruct (receive chunk (c_dev c)) as [d [k2 s2]]. cbn [set_conns sv_conns]. rewrite upd_conn_same. discriminate.
Qed.
Lemma below H sv j c : wlike H sv -> sv_conns sv j = Some c -> j <? sv_sid sv = true.
Proof. intros (_ & _ & _ & _ & _ & _ & _ & Hnew) Hc. apply Nat.ltb_lt. destruct (Nat.le_gt_cases (sv_sid sv) j) as [Hle|]; [|assumption]. destruct (Hnew j Hle). congruence. Qed.

Lemma wired_quiet H x sv sv' j k outs ss : wlike H sv -> wlike H sv' -> sv_trace sv' = sv_trace sv -> wired j sv k outs ss ->
  wired j sv' (w_wire_step P rc pc net j x sv sv' k) outs (ss ++ rep1 j x sv).
Proof.
  intros Hw Hw' Ht Hwi. assert (Hsid : sv_sid sv' = sv_sid sv) by (destruct Hw as (_ & _ & _ & _ & _ & Hn & _); destruct Hw' as (_ & _ & _ & _ & _ & Hn' & _); congruence).
  unfold w_wire_step, rep1. destruct (stopped (sv_trace sv)); [|destruct x as [kk|i]].
  - replace (match x with WKey _ => [] | WNet _ => [] end) with (@nil str) by (destruct x; reflexivity). rewrite app_nil_r. unfold wired in *. rewrite Hsid, Ht. exact Hwi.
  - rewrite app_nil_r. unfold wired in *. rewrite Hsid, Ht. exact Hwi.
  - unfold wire_step. rewrite Ht, skipn_all. cbn [deliver]. replace (if listens j i sv then k else k) with k by (destruct (listens j i sv); reflexivity).
    rewrite replies_concat. destruct (sv_conns sv j) as [c|] eqn:Hc.
    2: { rewrite (dead_replies E net j i sv Hc). cbn [concat]. rewrite send_nil, app_nil_r. unfold wired in *. rewrite Hsid, Ht. exact Hwi. }
    destruct (closed E net j (sv_trace sv)) eqn:Hcl.
    { rewrite (closed_replies E net j i sv Hcl). cbn [concat]. rewrite send_nil, app_nil_r. unfold wired in *. rewrite Hsid, Ht. exact Hwi. }
    unfold wired in *. rewrite Hsid, Ht, (below H sv j c Hw Hc) in *. destruct Hwi as (ps & H1 & H2 & H3 & H4). rewrite closed_gone in Hcl. rewrite Hcl in *.
    unfold send. rewrite H4. cbn [sk_sent sk_left]. exists (ps ++ map WireSpec.Reply (replies E net j i sv)). rewrite flat_map_app, bytes_replies, texts_app, texts_replies, replies_in_app, replies_replies, app_nil_r, H1, H2, H3. auto.
Qed.
Lemma wired_moved H x sv sv' evs m said H' j k outs ss : j <> 0 -> alive sv -> wlike H sv -> wlike H' sv' -> moved x sv = [m] -> moves (whole_complex rc) pc tty H m said (inl H') ->
  sv_trace sv' = sv_trace sv ++ evs -> saw H m (sv_trace sv) evs said -> wired j sv k outs ss ->
  wired j sv' (w_wire_step P rc pc net j x sv sv' k) (outs ++ [said]) (ss ++ rep1 j x sv).
Proof.
  intros Hj Hal Hw Hw' Hmv Hmoves Ht Hsaw Hwi. pose proof (moved_replies x sv m j Hal Hmv) as Hrep. rewrite Hrep, app_nil_r.
  pose proof Hw as (_ & _ & _ & _ & Hl & Hn & _ & Hnew). pose proof Hw' as (_ & _ & _ & _ & _ & Hn' & _ & _). pose proof (moves_count _ _ _ _ Hmoves) as Hcount. rewrite <- Hn, <- Hn' in Hcount.
  unfold w_wire_step. destruct (stopped (sv_trace sv)) eqn:Hs; [unfold WholeSpec.moved in Hmv; rewrite Hs in Hmv; discriminate|].
  destruct x as [kk|i]; [unfold WholeSpec.moved in Hmv; rewrite Hs in Hmv; discriminate|].
  assert (Hi : i = IRun) by (unfold WholeSpec.moved in Hmv; rewrite Hs in Hmv; destruct i; [reflexivity|destruct (sv_queue sv); discriminate|destruct (sv_queue sv); discriminate]). subst i.
  unfold rep1 in Hrep. rewrite Hs in Hrep. unfold wire_step. rewrite replies_concat, Hrep. cbn [concat]. rewrite send_nil, Ht, skip_trace.
  assert (Hnewc : m = Arrives <-> exists q, sv_queue sv = TkAccept true :: q).
  { unfold WholeSpec.moved in Hmv. rewrite Hs in Hmv. split.
    - intros ->. destruct (sv_queue sv) as [|[i k'|i r|[|]] q]; try discriminate; [|eauto]. destruct (step _ _) as [s|? ?| | | ]; try discriminate. destruct (sv_conns s i); discriminate.
    - intros (q & Hq). rewrite Hq in Hmv. injection Hmv as <-. reflexivity. }
  specialize (Hsaw j). specialize (Hl j). assert (Hj0 : Nat.eqb j 0 = false) by (apply Nat.eqb_neq, Hj). rewrite Hj0 in Hsaw.
  unfold wired in *. rewrite Ht, gone_app, view_app, view_one.
  destruct (there H m j) eqn:Hth.
  - destruct Hsaw as (Hs1 & Hs2). destruct (sv_conns sv j) as [c|] eqn:Hc.
    + cbn [conn_like] in Hl. destruct Hl as (u & Hu & Hg & _). pose proof (below H sv j c Hw Hc) as Hb. rewrite Hb in Hwi. destruct Hwi as (ps & W1 & W2 & W3 & W4).
      assert (Hex : c_exit c = false). { destruct (c_exit c); [|reflexivity]. destruct Hu as (Hu & Hlate). unfold there in Hth. rewrite Hu in Hth. destruct m; try discriminate. apply Nat.eqb_eq in Hth. rewrite <- Hn in Hth. apply Nat.ltb_lt in Hb. lia. }
      rewrite Hex in Hg. rewrite Hg in *. assert (Hb' : j <? sv_sid sv' = true) by (apply Nat.ltb_lt in Hb; apply Nat.ltb_lt; rewrite Hcount; destruct m; lia). rewrite Hb'.
      unfold listens. rewrite Hc. rewrite deliver_gets, W4. cbn [sk_sent sk_left]. exists (ps ++ [Text (said j)]).
      rewrite flat_map_app, texts_app, replies_in_app, W1, W2, W3, Hs2, Hs1. cbn. rewrite !app_nil_r. auto.
    + destruct Hl as (Hu & _). unfold there in Hth. rewrite Hu in Hth. destruct m; try discriminate. apply Nat.eqb_eq in Hth. rewrite <- Hn in Hth. destruct (proj1 Hnewc eq_refl) as (q & Hq).
      assert (Hb : j <? sv_sid sv = false) by (apply Nat.ltb_ge; lia). rewrite Hb in Hwi. destruct Hwi as (-> & -> & ->). assert (Hb' : j <? sv_sid sv' = true) by (apply Nat.ltb_lt; lia). rewrite Hb'.
      destruct (Hnew j) as (_ & Hg); [lia|]. rewrite Hg. unfold listens. rewrite Hc, Hq. rewrite Hth, Nat.eqb_refl, <- Hth, deliver_gets. cbn [sk_sent sk_left sock_init].
      exists [Text (said j)]. rewrite Hs1, Hs2. cbn. rewrite !app_nil_r. auto.
  - destruct Hsaw as (Hs1 & Hs2). rewrite Hs1, app_nil_r. destruct (sv_conns sv j) as [c|] eqn:Hc.
    + cbn [conn_like] in Hl. destruct Hl as (u & Hu & Hg & _). pose proof (below H sv j c Hw Hc) as Hb. rewrite Hb in Hwi. destruct Hwi as (ps & W1 & W2 & W3 & W4).
      assert (Hex : c_exit c = true). { destruct (c_exit c); [reflexivity|]. destruct Hu as (Hu & Hlate). unfold there in Hth. rewrite Hu in Hth. discriminate. }
      rewrite Hex in Hg. rewrite Hg in *. assert (Hb' : j <? sv_sid sv' = true) by (apply Nat.ltb_lt in Hb; apply Nat.ltb_lt; rewrite Hcount; destruct m; lia). rewrite Hb'.
      unfold listens. rewrite Hc. rewrite deliver_gets, W4, gets_zero, lefts_zero. cbn [sk_sent sk_left orb]. exists ps. rewrite W1. cbn. rewrite app_nil_r. auto.
    + destruct Hl as (Hu & _). assert (Hne : m = Arrives -> j <> sv_sid sv). { intros ->. unfold there in Hth. rewrite Hu in Hth. apply Nat.eqb_neq in Hth. lia. }
      assert (Hli : listens j IRun sv = false). { unfold listens. rewrite Hc. destruct (sv_queue sv) as [|[| |[|]] q] eqn:Hq; try reflexivity. apply Nat.eqb_neq. intros He. apply Hne; [apply Hnewc; eauto|auto]. }
      rewrite Hli. destruct (j <? sv_sid sv) eqn:Hb.
      * assert (Hb' : j <? sv_sid sv' = true) by (apply Nat.ltb_lt in Hb; apply Nat.ltb_lt; rewrite Hcount; destruct m; lia). rewrite Hb'. destruct Hwi as (ps & W1 & W2 & W3 & W4). exists ps.
        destruct (gone j (sv_trace sv)); [auto|]. rewrite (Hs2 eq_refl). auto.
      * assert (Hb' : j <? sv_sid sv' = false). { apply Nat.ltb_ge in Hb. apply Nat.ltb_ge. rewrite Hcount. destruct m; try lia. pose proof (Hne eq_refl). lia. } rewrite Hb'. exact Hwi.
Qed.

(** *** A run *)
Lemma alive_step H x sv sv' : wlike H sv -> alive sv -> step x sv = VOk sv' -> alive sv'.
Proof.
  clear Hdeep Hstrict.
  intros Hw ((ps & hs & Hl) & Hf) Hst. split.
  - pose proof (local_step x sv ps hs) as Hls. rewrite Hst in Hls. do 2 eexists. apply Hls; [|exact Hl]. intros c Hc. pose proof (below H sv 0 c Hw Hc) as Hb. apply Nat.ltb_lt in Hb. exact Hb.
  - intros sid Hs. destruct (Hf sid Hs) as (h & d & s & Hfl). pose proof (flow_step sid x sv h d s Hs Hfl) as Hv. rewrite Hst in Hv. cbn [v_flows] in Hv. eauto.
Qed.
Lemma local_saw H m x sv evs said : wlike H sv -> alive sv -> moved x sv = [m] -> saw H m (sv_trace sv) evs said -> audible 0 evs = said 0.
Proof.
  intros (_ & _ & _ & _ & Hl & _) ((ps & hs & c & ks & Hc & _) & _) Hmv Hsaw. specialize (Hl 0). rewrite Hc in Hl. destruct Hl as (u & Hu & Hg & _). unfold WholeSpec.moved in Hmv. rewrite stopped_gone, Hg in Hmv.
  destruct (c_exit c); [discriminate|]. destruct Hu as (Hu & _). specialize (Hsaw 0). unfold there in Hsaw. rewrite Hu in Hsaw. exact Hsaw.
Qed.
Lemma run_plays xs : forall H sv, wlike H sv -> alive sv -> Forall (ok_move P) (w_moves P rc pc net F tty xs sv) ->
  exists outs res, plays (whole_complex rc) pc tty H (w_moves P rc pc net F tty xs sv) outs res /\
  match res with
  | inl H' => exists sv', w_run P rc pc net F tty xs sv = VOk sv' /\ wlike H' sv' /\ audible 0 (sv_trace sv') = audible 0 (sv_trace sv) ++ view 0 outs /\
      forall j k outs0 ss, j <> 0 -> wired j sv k outs0 ss -> wired j sv' (w_wire P rc pc net F tty j xs sv k) (outs0 ++ outs) (ss ++ w_replied P rc pc net F tty j xs sv)
  | inr Undef => w_run P rc pc net F tty xs sv = VUB
  | inr Crash => exists e sv', w_run P rc pc net F tty xs sv = VExc e sv'
  | inr Endless => w_run P rc pc net F tty xs sv = VFuel
  end.
Proof.
  induction xs as [|x xs IH]; intros H sv Hw Hal Hok.
  { exists [], (inl H). split; [apply p_nil|]. exists sv. split; [reflexivity|]. split; [exact Hw|]. split; [symmetry; apply app_nil_r|]. intros j k outs0 ss _ Hwi. cbn [w_wire w_replied]. rewrite !app_nil_r. exact Hwi. }
  cbn [w_moves] in Hok |- *. apply Forall_app in Hok as (Hok1 & Hok2). cbn [w_run w_wire w_replied].
  destruct (step_all H x sv Hw Hal Hok1) as [(Hmv & sv' & Hst & Ht & Hw')|(m & said & res & Hmv & Hmoves & Hres)].
  - pose proof (alive_step H x sv sv' Hw Hal Hst) as Hal'. rewrite Hmv, Hst in *. cbn [app]. destruct (IH H sv' Hw' Hal' Hok2) as (outs & res & Hplays & Hend). exists outs, res. split; [exact Hplays|].
    destruct res as [H2|[| |]]; [|exact Hend|exact Hend|exact Hend]. destruct Hend as (sv2 & Hrun & Hw2 & Ha & Hwired). exists sv2. split; [exact Hrun|]. split; [exact Hw2|]. split; [rewrite Ha, Ht; reflexivity|].
    intros j k outs0 ss Hj Hwi. rewrite app_assoc. apply Hwired; [exact Hj|]. exact (wired_quiet H x sv sv' j k outs0 ss Hw Hw' Ht Hwi).
  - destruct res as [H'|e].
    + destruct Hres as (sv' & evs & Hst & Ht & Hw' & Hsaw). pose proof (alive_step H x sv sv' Hw Hal Hst) as Hal'. rewrite Hst in Hok2. destruct (IH H' sv' Hw' Hal' Hok2) as (outs & res & Hplays & Hend).
      exists (said :: outs), res. rewrite Hmv, Hst. cbn [app]. split; [exact (p_cons _ _ _ _ _ _ _ _ _ _ Hmoves Hplays)|]. destruct res as [H2|[| |]]; [|exact Hend|exact Hend|exact Hend].
      destruct Hend as (sv2 & Hrun & Hw2 & Ha & Hwired). exists sv2. split; [exact Hrun|]. split; [exact Hw2|]. split.
      * rewrite Ha, Ht, audible_app, (local_saw H m x sv evs said Hw Hal Hmv Hsaw), <- app_assoc. reflexivity.
      * intros j k outs0 ss Hj Hwi. rewrite app_assoc. replace (outs0 ++ said :: outs) with ((outs0 ++ [said]) ++ outs) by (rewrite <- app_assoc; reflexivity). apply Hwired; [exact Hj|].
        exact (wired_moved H x sv sv' evs m said H' j k outs0 ss Hj Hal Hw Hw' Hmv Hmoves Ht Hsaw Hwi).
    + exists [], (inr e). rewrite Hmv. cbn [app]. split; [exact (p_ends _ _ _ _ _ _ _ _ Hmoves)|]. destruct e; [rewrite Hres; reflexivity| |rewrite Hres; reflexivity]. destruct Hres as (ex & sv' & ->). eauto.
Qed.

(** *** Keys come in order *)
Lemma step_runs x sv : (exists sv', step x sv = VOk sv') \/ (x = WNet IRun /\ stopped (sv_trace sv) = false).
Proof.
  unfold w_step. destruct (stopped (sv_trace sv)); [left; eauto|]. destruct x as [k|i]; [left; eauto|]. destruct i as [|ok|j r]; [right; auto| |]; left; destruct (sv_queue sv); cbn [sv_step];
    repeat match goal with |- context[match ?x with _ => _ end] => destruct x end; eauto.
Qed.
Lemma hits_run sid sv : stopped (sv_trace sv) = false ->
  hits sid (moved (WNet IRun) sv) = match sv_queue sv with TkKey j k :: _ => if Nat.eqb j sid then [k] else [] | _ => [] end.
Proof.
  intros Hs. unfold WholeSpec.moved. rewrite Hs. destruct (sv_queue sv) as [|[i k|i r|[|]] q]; try reflexivity.
  - cbn [hits flat_map]. rewrite app_nil_r. reflexivity.
  - destruct (step _ sv) as [s|? s| | |]; try reflexivity. destruct (sv_conns s i); reflexivity.
Qed.
Lemma flow_all sid xs : forall sv hs ds ss, sid <> 0 -> flows sid sv hs ds ss -> exists ks more,
  snd (receive (ds ++ w_delivered P rc pc net F tty sid xs sv) dev_init) =
  ((hs ++ hits sid (w_moves P rc pc net F tty xs sv)) ++ ks, (ss ++ w_replied P rc pc net F tty sid xs sv) ++ more).
Proof.
  induction xs as [|x xs IH]; intros sv hs ds ss Hs Hf; cbn [w_delivered w_moves w_replied].
  - cbn [hits flat_map]. rewrite !app_nil_r. eapply flow_prefix. apply Hf.
  - unfold hits. rewrite flat_map_app. fold (hits sid (moved x sv)). rewrite !app_assoc. fold (del1 sid x sv). fold (rep1 sid x sv). pose proof (flow_step sid x sv hs ds ss Hs Hf) as Hv.
    destruct (step_runs x sv) as [(sv' & Hst)|(-> & Hns)]; [rewrite Hst in *; exact (IH _ _ _ _ Hs Hv)|].
    destruct (step (WNet IRun) sv) as [sv'|e sv'| | |] eqn:Hst; [exact (IH _ _ _ _ Hs Hv)|..]; cbn [flat_map]; rewrite !app_nil_r.
    all: rewrite hits_run by exact Hns; unfold del1, rep1; rewrite Hns; destruct (flow_start E net sid IRun sv hs ds ss Hf) as (ks & more & He); exists ks, more; rewrite He, <- !app_assoc; reflexivity.
Qed.
Lemma sid_grows x sv sv' : step x sv = VOk sv' -> sv_sid sv <= sv_sid sv'.
Proof.
  unfold w_step. destruct (stopped (sv_trace sv)); [intros [= ->]; auto|]. destruct x as [k|i]; [intros [= <-]; auto|].
  assert (Hgen : sv_step E net 100 F false flags i sv = VOk sv' -> (match i, sv_queue sv with IRun, TkKey _ _ :: _ => False | _, _ => True end) -> sv_sid sv <= sv_sid sv').
  { intros Hst Hn. destruct i as [|ok|j r]; cbn [sv_step] in Hst.
    - destruct (sv_queue sv) as [|[j k|j r|ok] q]; [injection Hst as ->; auto|contradiction| |]; cbn [run_task set_conns sv_conns] in Hst.
      + destruct (sv_conns sv j) as [c|]; [|discriminate]. injection Hst as <-. unfold run_read. cbn [set_conns sv_trace sv_conns sv_queue].
        destruct (closed E net j (sv_trace sv)); [auto|]. destruct r as [chunk| |]; [destruct (receive chunk (c_dev c)) as (d & k2 & s2)|..]; auto.
      + unfold run_accept in Hst. cbn [set_conns sv_sid sv_root sv_next sv_store sv_trace sv_conns sv_queue] in Hst. destruct ok; [|injection Hst as <-; auto].
        destruct (p_bind _ _) as [p|e p| |]; try discriminate. injection Hst as <-. cbn [sv_sid]. auto.
    - destruct (sv_accepting sv); injection Hst as <-; auto.
    - destruct (sv_conns sv j) as [cj|]; [destruct (c_reading cj)|]; injection Hst as <-; auto. }
  destruct i as [|ok|j r]; try (intros Hst; apply Hgen; [destruct (sv_queue sv); exact Hst|destruct (sv_queue sv); exact Logic.I]).
  destruct (sv_queue sv) as [|[j k|j r|ok] q] eqn:Hq; try (intros Hst; apply Hgen; [exact Hst|exact Logic.I]).
  destruct (sv_conns sv j) as [c|]; [|discriminate]. pose proof (run_key_shape j k c (set_conns (sv_conns sv) q sv)) as Hsh. intros Hst. rewrite Hst in Hsh. destruct Hsh as (p & ->). auto.
Qed.
Lemma local_all xs : forall sv ps hs, 0 < sv_sid sv -> local sv ps hs ->
  exists ks, ps ++ w_pressed P rc pc net F tty xs sv = (hs ++ hits 0 (w_moves P rc pc net F tty xs sv)) ++ ks.
Proof.
  clear Hdeep Hstrict.
  induction xs as [|x xs IH]; intros sv ps hs Hpos Hl; cbn [w_pressed w_moves].
  - cbn [hits flat_map]. rewrite !app_nil_r. destruct Hl as (c & ks & _ & _ & _ & ->). eauto.
  - unfold hits. rewrite flat_map_app. fold (hits 0 (moved x sv)). rewrite !app_assoc. fold (pressed1 x sv).
    pose proof (local_step x sv ps hs (fun _ _ => Hpos) Hl) as Hv.
    assert (Hgo : forall sv', step x sv = VOk sv' -> 0 < sv_sid sv') by (intros sv' Hst; pose proof (sid_grows x sv sv' Hst); lia).
    destruct (step_runs x sv) as [(sv' & Hst)|(-> & Hns)]; [specialize (Hgo _ Hst); rewrite Hst in *; exact (IH sv' _ _ Hgo Hv)|].
    destruct (step (WNet IRun) sv) as [sv'|e sv'| | |] eqn:Hst; [exact (IH sv' _ _ (Hgo sv' eq_refl) Hv)|..]; cbn [flat_map]; rewrite !app_nil_r; rewrite hits_run by exact Hns; cbn [pressed1]; try rewrite app_nil_r;
      destruct Hl as (c & ks & _ & _ & Hm & ->);
      (destruct (sv_queue sv) as [|[i k|i r|ok] q]; try (exists ks; rewrite app_nil_r; reflexivity); destruct (Nat.eqb i 0) eqn:Hi; [|exists ks; rewrite app_nil_r; reflexivity];
       cbn [mine filter of_sid] in Hm; rewrite Hi in Hm; destruct ks as [|k' ks]; [discriminate|]; injection Hm as -> -> _; exists ks; rewrite <- app_assoc; reflexivity).
Qed.

(** *** The start *)
Lemma start_ok f : Forall (readable P) (f_commands f) -> let saved := f_commands f in
  exists sv, whole_start P rc pc tty f = VOk sv /\
    moves (whole_complex rc) pc tty (dawn saved) Arrives (for_one 0 (prompt_shown false tty Main)) (inl (arrived (dawn saved) tty)) /\
    wlike (arrived (dawn saved) tty) sv /\ local sv [] [] /\ (forall sid, sid <> 0 -> flows sid sv [] [] []) /\
    audible 0 (sv_trace sv) = prompt_shown false tty Main /\ forall j, j <> 0 -> wired j sv sock_init [for_one 0 (prompt_shown false tty Main)] [].
Proof.
  clear Hdeep.
  intros Hf0 saved. assert (Hf : Forall fine (f_commands f)) by (apply Forall_and; [exact Hf0|apply f_commands_one_line]). set (sv0 := server_init cx_root 33 (StFile 1000 f)).
  assert (Hw0 : wlike (dawn saved) sv0).
  { split; [exact root_start|]. split; [exists f; split; reflexivity|]. split; [exact Hf|]. split; [reflexivity|]. split; [intros i; split; reflexivity|]. split; [reflexivity|]. split; [reflexivity|]. intros i _. split; reflexivity. }
  set (evs := map (EvOut 0) [prompt_shown false tty Main]). destruct (only_outs 0 [prompt_shown false tty Main]) as (O1 & O2 & O3 & O4 & O5). fold evs in O1, O2, O3, O4, O5. destruct (color_quiet [] evs O5) as (Q1 & Q2 & Q3).
  set (sv1 := mkServer (sv_root sv0) (sv_next sv0) (sv_store sv0) (sv_trace sv0 ++ evs)
      (upd_conn (sv_conns sv0) 0 (Some (mkConn dev_init (mkTerm [] 0 false) 10 (hist_of (size 0) (newcomer (size 0) saved)) false false))) 1 [] true).
  exists sv1. split; [|split; [|split; [|split; [|split; [|split]]]]].
  - unfold whole_start, open_local, session_enter. cbn [cx_env e_has h_bind of_hres p_bind].
    destruct (newcomer_like 0 false false (StFile 1000 f) saved Hf eq_refl) as (Hk & _). unfold p_prompt. cbn [p_world p_term term_init tm_force tm_line tm_pos].
    rewrite (prompt_at tty false false false false (newcomer (size 0) saved)).
    2: { destruct Hk as (K1 & K2 & K3). split; [exact root_start|reflexivity]. }
    destruct Hk as (_ & _ & K3). cbn [open_session w_hist] in K3. unfold sv1, sv0, p_out, out, log. cbn [w_exit open_session p_world p_term w_root w_next w_store w_trace w_sid w_cur w_hist server_init sv_root sv_next sv_store sv_trace sv_conns].
    change (room (Nat.eqb 0 0)) with 200 in *. rewrite K3. reflexivity.
  - exact (m_arrives (whole_complex rc) pc tty (dawn saved) (morning saved) 0 tty eq_refl eq_refl eq_refl).
  - pose proof (wlike_arrives (dawn saved) sv0 [] evs false true Hw0) as Ha. cbn zeta in Ha. apply Ha; [reflexivity| |].
    + intros j. destruct (Nat.eq_dec j 0) as [->|Hne]; [exact O2|apply O1, Hne].
    + split; [exact Q2|exact Q3].
  - do 2 eexists. split; [reflexivity|]. split; [reflexivity|]. split; [exact (eq_refl : mine 0 [] = map (TkKey 0) [])|reflexivity].
  - intros sid Hs. split.
    + unfold sv1. cbn [sv_conns sv_queue]. rewrite upd_conn_other by auto. split; [reflexivity|]. exists [], []. reflexivity.
    + intros _. unfold sv1. cbn [sv_conns]. rewrite upd_conn_other by auto. repeat split.
  - unfold sv1. cbn [sv_trace sv0 server_init app]. rewrite O4. apply app_nil_r.
  - intros j Hj. unfold wired. assert (Hb : j <? sv_sid sv1 = false) by (apply Nat.ltb_ge; cbn; lia). rewrite Hb, view_one. unfold for_one. apply Nat.eqb_neq in Hj. rewrite Hj. auto.
Qed.
Lemma wlike_seen H sv : wlike H sv -> hall_seen H sv.
Proof.
  intros (Hr & (f & Hf & Hs) & Hfine & Hc & Hl & Hn & Hcl & Hnew). split; [|split; [|split; [|split]]].
  - intros i. specialize (Hl i). destruct (sv_conns sv i) as [c|]; cbn [conn_like] in Hl.
    + destruct Hl as (u & Hu & _). destruct (c_exit c) eqn:He; destruct Hu as (Hu & _); rewrite Hu; (split; [intros H1|]).
      * contradiction.
      * intros (c' & E1 & E2). injection E1 as <-. congruence.
      * eauto.
      * discriminate.
    + destruct Hl as (-> & _). split; [contradiction|]. intros (c & Hx & _). discriminate.
  - intros i u c Hu Hci. specialize (Hl i). rewrite Hci in Hl. destruct Hl as (u' & Hu' & _ & Hcur & _ & _ & Hh & _). destruct (c_exit c); destruct Hu' as (Hu' & _); [congruence|]. assert (u' = u) by congruence. subst u'. split.
    + destruct Hh as (Hh & _). exact Hh.
    + unfold prompt_text, proc_of. cbn [p_world w_root w_cur]. rewrite Hr, Hcur, clocated. destruct (u_place u); reflexivity.
  - exact Hc.
  - rewrite Hf. cbn [st_commands]. exact Hs.
  - rewrite stopped_gone. symmetry. exact Hcl.
Qed.
Theorem whole_run f xs sv0 : Forall (readable P) (f_commands f) -> whole_start P rc pc tty f = VOk sv0 -> Forall (ok_move P) (w_moves P rc pc net F tty xs sv0) ->
  exists outs res, plays (whole_complex rc) pc tty (dawn (f_commands f)) (Arrives :: w_moves P rc pc net F tty xs sv0) outs res /\
  match res with
  | inl H => exists sv, w_run P rc pc net F tty xs sv0 = VOk sv /\ hall_seen H sv /\ audible 0 (sv_trace sv) = view 0 outs /\
      forall i, i <> 0 -> exists ps, sk_sent (w_wire P rc pc net F tty i xs sv0 sock_init) = flat_map piece_bytes ps /\
        texts ps = view i outs /\ replies_in ps = w_replied P rc pc net F tty i xs sv0
  | inr Undef => w_run P rc pc net F tty xs sv0 = VUB
  | inr Crash => exists e sv, w_run P rc pc net F tty xs sv0 = VExc e sv
  | inr Endless => w_run P rc pc net F tty xs sv0 = VFuel
  end.
Proof.
  intros Hf Hst Hok. destruct (start_ok f Hf) as (sv & Hst' & Hm & Hw & Hl & Hfl & Ha & Hwi). cbn zeta in *. rewrite Hst in Hst'. injection Hst' as <-.
  assert (Hal : alive sv0) by (split; [eauto|intros sid Hs; exists [], [], []; apply Hfl, Hs]).
  destruct (run_plays xs _ sv0 Hw Hal Hok) as (outs & res & Hp & Hres). exists (for_one 0 (prompt_shown false tty Main) :: outs), res. split; [exact (p_cons _ _ _ _ _ _ _ _ _ _ Hm Hp)|].
  destruct res as [H|[| |]]; [|exact Hres|exact Hres|exact Hres]. destruct Hres as (sv & Hrun & Hw' & Ha' & Hwired). exists sv. split; [exact Hrun|]. split; [apply wlike_seen, Hw'|]. split.
  - rewrite Ha', Ha. reflexivity.
  - intros i Hi. pose proof (Hwired i sock_init _ [] Hi (Hwi i Hi)) as Hx. unfold wired in Hx. cbn [app] in Hx. destruct (i <? sv_sid sv).
    + destruct Hx as (ps & X1 & X2 & X3 & _). exists ps. auto.
    + destruct Hx as (-> & X2 & X3). exists []. rewrite X2, X3. auto.
Qed.
(** *** A remembered line rewritten so that it recalls itself *)
Lemma run_app xs : forall ys sv, w_run P rc pc net F tty (xs ++ ys) sv = match w_run P rc pc net F tty xs sv with VOk sv' => w_run P rc pc net F tty ys sv' | r => r end.
Proof. induction xs as [|x xs IH]; intros ys sv; [reflexivity|]. cbn [app w_run]. destruct (step x sv); [apply IH|reflexivity..]. Qed.
Lemma no_keys xs : forall sv, (forall k, ~ In (WKey k) xs) -> w_pressed P rc pc net F tty xs sv = [].
Proof.
  clear Hdeep. induction xs as [|x xs IH]; intros sv H; [reflexivity|]. cbn [w_pressed].
  assert (IH' : match step x sv with VOk sv' => w_pressed P rc pc net F tty xs sv' | _ => [] end = []) by (destruct (step x sv); try reflexivity; apply IH; intros k Hk; apply (H k); right; exact Hk).
  rewrite IH', app_nil_r. destruct x as [k|i]; [|reflexivity]. destruct (H k). left. reflexivity.
Qed.
Lemma endless_run f xs sv0 sv q i co v : Forall (readable P) (f_commands f) -> whole_start P rc pc tty f = VOk sv0 -> Forall (ok_move P) (w_moves P rc pc net F tty xs sv0) ->
  w_run P rc pc net F tty xs sv0 = VOk sv -> stopped (sv_trace sv) = false -> sv_queue sv = TkKey i KRet :: q -> sv_conns sv i = Some co -> c_exit co = false ->
  h_browse (c_hist co) = true -> tl (h_buf (c_hist co)) = [lit "help"; get_line (c_term co)] -> h_oldest (c_hist co) = 0%Z ->
  words (get_line (c_term co)) [lit "!"; v] -> int_text UInt v 0 -> w_run P rc pc net F tty (xs ++ [WNet IRun]) sv0 = VFuel.
Proof.
  intros Hf Hst Hok Hrun Hns Hq Hco Hx Hb Hbuf Hold Hw Hv. rewrite run_app, Hrun. cbn [w_run].
  destruct (start_ok f Hf) as (sv1 & Hst' & _ & Hw1 & Hl & Hfl & _ & _). rewrite Hst in Hst'. injection Hst' as <-.
  assert (Hal : alive sv0) by (split; [eauto|intros sid Hs; exists [], [], []; apply Hfl, Hs]).
  destruct (run_plays xs _ sv0 Hw1 Hal Hok) as (outs & [H|[| |]] & _ & Hres); [|try congruence..]; [|destruct Hres as (? & ? & Hres); congruence].
  destruct Hres as (sv' & Hrun' & Hlike & _). assert (sv' = sv) by congruence. subst sv'.
  assert (Hw0 : wlike H (set_conns (sv_conns sv) q sv)) by (apply (wlike_quiet H sv); try reflexivity; [exact Hlike|]; intros i'; left; reflexivity).
  assert (Hg : gone 0 (sv_trace sv) = false) by (rewrite <- stopped_gone; exact Hns).
  destruct (key_ret H (set_conns (sv_conns sv) q sv) i co Hw0 Hg Hco) as (said & res & Hm & Hk).
  assert (Hstep : step (WNet IRun) sv = run_key P rc pc net F tty i KRet co (set_conns (sv_conns sv) q sv)) by (unfold w_step; rewrite Hns, Hq, Hco; reflexivity).
  destruct Hlike as (_ & _ & _ & _ & Hc & _). specialize (Hc i). rewrite Hco in Hc. destruct Hc as (u & Hu & _ & _ & (Hh & Hpg & _) & (Hlen & _) & (Hln & _) & _). rewrite Hx in Hu. destruct Hu as (Hu & Hla).
  set (line := get_line (c_term co)) in *. change (get_line (c_term co)) with (tm_line (c_term co)) in line.
  assert (Hlines : u_lines u = [line; lit "help"] /\ u_first u = 0%Z).
  { rewrite Hh in Hb, Hbuf, Hold. destruct (d_page (l_desks H i)) as [[t n]|]; [|discriminate]. cbn [hist_at h_browse h_buf h_oldest tl] in *.
    split; [|exact Hold]. rewrite <- (rev_involutive (u_lines u)), Hbuf. reflexivity. }
  assert (Htext : ed_text (d_line (l_desks H i)) = line) by (unfold line; symmetry; exact Hln).
  assert (Hno : forall r, ~ replies_to (whole_complex rc) pc (l_house H) i u line r).
  { intros r. apply (no_answer _ _ _ _ _ _ line v Hw Hv); [destruct (Nat.eqb i 0); cbn; lia|apply Hlines| |apply Hlines].
    intros E1. rewrite E1 in Hw. apply words_split in Hw. vm_compute in Hw. discriminate. }
  rewrite Hstep. assert (Hres : res = inr Endless); [|subst res; cbn [keyed] in Hk; rewrite Hk; reflexivity].
  inversion Hm; subst; try congruence;
    try (match goal with A : adjusts _ _ _ KRet _ _ _ _ _ |- _ => inversion A; subst; discriminate end);
    try (match goal with A : l_desks H i = _ |- _ => rewrite A in Htext; cbn [d_line] in Htext end);
    repeat match goal with A : _ \/ _ |- _ => destruct A end;
    try congruence; exfalso; eapply Hno; rewrite <- Htext;
    match goal with A : o_users (l_house H) i = Some ?a |- _ => assert (a = u) by congruence; subst a end; eassumption.
Qed.
Theorem whole_keys f xs sv0 : Forall (readable P) (f_commands f) -> whole_start P rc pc tty f = VOk sv0 ->
  (exists ks, w_pressed P rc pc net F tty xs sv0 = hits 0 (w_moves P rc pc net F tty xs sv0) ++ ks) /\
  forall i, i <> 0 -> exists ks more, snd (receive (w_delivered P rc pc net F tty i xs sv0) dev_init) =
    (hits i (w_moves P rc pc net F tty xs sv0) ++ ks, w_replied P rc pc net F tty i xs sv0 ++ more).
Proof.
  intros Hf Hst. destruct (start_ok f Hf) as (sv & Hst' & Hm & Hw & Hl & Hfl & Ha & Hwi). cbn zeta in *. rewrite Hst in Hst'. injection Hst' as <-.
  assert (Hal : alive sv0) by (split; [eauto|intros sid Hs; exists [], [], []; apply Hfl, Hs]). split.
  - destruct (local_all xs sv0 [] []) as (ks & He); [|exact Hl|eauto]. destruct Hl as (c & ks & Hc & _). apply Nat.ltb_lt, (below _ sv0 0 c Hw Hc).
  - intros i Hi. destruct (flow_all i xs sv0 [] [] [] Hi (Hfl i Hi)) as (ks & more & He). eauto.
Qed.
Theorem whole_starts f : Forall (readable P) (f_commands f) -> exists sv0, whole_start P rc pc tty f = VOk sv0.
Proof. intros Hf. destruct (start_ok f Hf) as (sv & H & _). eauto. Qed.
End Whole.

(** ** There is only one answer *)
Section Once.
Context (complex : str -> Z -> Prop) (pc : Z -> str) (tty : bool) (Hcomplex : forall s v v', complex s v -> complex s v' -> v = v').
(** No one is there and has left. *)
Definition proper (H : hall) : Prop := forall i,
  (o_users (l_house H) i = None \/ l_late H i = None) /\ (o_count (l_house H) <= i -> o_users (l_house H) i = None /\ l_late H i = None).
Lemma adjusts_not c g n k u d s u' d' : adjusts c g n k u d s u' d' -> k <> KRet /\ k <> KEof.
Proof.
  intros H. inversion H; subst; repeat split; try discriminate; destruct k; discriminate.
Qed.
Lemma page_after_unique line page a b : page_after line page a -> page_after line page b -> a = b.
Proof. intros [(? & ->)|(? & ->)] [(? & ->)|(? & ->)]; try reflexivity; contradiction. Qed.
Lemma moves_unique H m said r : proper H -> moves complex pc tty H m said r -> forall said' r', moves complex pc tty H m said' r' -> said = said' /\ r = r'.
Proof.
  intros Hp Hm said' r' Hm'.
  assert (Hboth : forall i u v, o_users (l_house H) i = Some u -> l_late H i = Some v -> False) by (intros i u v A B; destruct (Hp i) as ([|] & _); congruence).
  inversion Hm; subst; inversion Hm'; subst;
    repeat match goal with H1 : o_users (l_house H) _ = Some _ \/ l_late H _ = Some _ |- _ => destruct H1 end;
    try congruence; try (exfalso; eapply Hboth; eassumption);
    repeat match goal with
    | H1 : o_users (l_house H) ?i = Some ?u, H2 : o_users (l_house H) ?i = Some ?v |- _ => assert_fails (constr_eq u v); assert (v = u) by congruence; subst v; clear H2
    | H1 : l_late H ?i = Some ?u, H2 : l_late H ?i = Some ?v |- _ => assert_fails (constr_eq u v); assert (v = u) by congruence; subst v; clear H2
    | H1 : l_desks H ?i = mkDesk ?e ?b ?q, H2 : l_desks H ?i = mkDesk ?e' ?b' ?q' |- _ => let E := fresh in assert (E : mkDesk e' b' q' = mkDesk e b q) by congruence; injection E as -> -> ->; clear H2
    end;
    try (match goal with H1 : adjusts _ _ _ ?k _ _ _ _ _ |- _ => assert_fails (is_var k); exfalso; apply adjusts_not in H1 as (? & ?); congruence end);
    try (match goal with H1 : l_desks H ?i = mkDesk _ _ _, H2 : forall r, ~ replies_to _ _ _ _ _ (ed_text (d_line (l_desks H ?i))) r |- _ => rewrite H1 in H2; cbn [d_line] in H2 end);
    try (match goal with H1 : forall r, ~ replies_to _ _ _ _ _ _ r, H2 : replies_to _ _ _ _ _ _ _ |- _ => exfalso; exact (H1 _ H2) end);
    try (match goal with H1 : l_desks H ?i = mkDesk _ _ _, H2 : context[l_desks H ?i] |- _ => rewrite H1 in H2; cbn [d_line] in H2 end);
    repeat match goal with
    | H1 : adjusts _ _ _ _ _ _ _ _ _, H2 : adjusts _ _ _ _ _ _ _ _ _ |- _ => let A := fresh in let B := fresh in let C := fresh in pose proof (adjusts_unique _ _ _ _ _ _ _ _ _ H1 _ _ _ H2) as (A & B & C); subst; clear H2
    | H1 : replies_to _ _ _ _ _ _ ?a, H2 : replies_to _ _ _ _ _ _ ?b |- _ => assert_fails (constr_eq a b); let E := fresh in pose proof (answers_unique complex pc Hcomplex _ _ _ _ _ _ _ H1 _ H2) as E; first [discriminate E|injection E; intros; subst; clear H2 E]
    | H1 : page_after _ _ ?a, H2 : page_after _ _ ?b |- _ => assert_fails (constr_eq a b); let E := fresh in pose proof (page_after_unique _ _ _ _ H1 H2) as E; subst; clear H2
    end; auto.
Qed.
Lemma moves_proper H m said H' : proper H -> moves complex pc tty H m said (inl H') -> proper H'.
Proof.
  intros Hp Hm. inversion Hm; subst; intros j; destruct (Hp j) as (A & B); cbn [l_house l_late stays departs o_users o_count]; unfold place_user, put; try (split; [exact A|exact B]).
  1: { destruct (Nat.eqb_spec j (o_count (l_house H))) as [->|Hne].
    - split; [right; apply B; lia|lia].
    - split; [exact A|intros Hle; apply B; lia]. }
  all: destruct (Nat.eqb_spec j i) as [->|Hne]; [|split; [exact A|exact B]].
  all: (split; [first [left; reflexivity|right; reflexivity|destruct A; [congruence|right; assumption]]|intros Hle; destruct (B Hle); first [congruence|auto]]).
Qed.
Lemma plays_unique H ms l r : plays complex pc tty H ms l r -> proper H -> forall l' r', plays complex pc tty H ms l' r' -> l = l' /\ r = r'.
Proof.
  intros Hpl. induction Hpl as [H|H m said H' ms l r Hm Hp IH|H m said e ms Hm]; intros Hpr l' r' H2; inversion H2 as [|? ? said2 H2' ? l2 r2 Xm Xp|? ? said2 e2 ? Xm]; subst.
  - auto.
  - destruct (moves_unique _ _ _ _ Hpr Hm _ _ Xm) as (-> & E). injection E as <-. destruct (IH (moves_proper _ _ _ _ Hpr Hm) _ _ Xp) as (-> & ->). auto.
  - destruct (moves_unique _ _ _ _ Hpr Hm _ _ Xm) as (_ & E). discriminate.
  - destruct (moves_unique _ _ _ _ Hpr Hm _ _ Xm) as (_ & E). discriminate.
  - destruct (moves_unique _ _ _ _ Hpr Hm _ _ Xm) as (_ & E). injection E as <-. auto.
Qed.
End Once.
Theorem whole_unique rc pc tty saved ms l r l' r' : plays (whole_complex rc) pc tty (dawn saved) ms l r -> plays (whole_complex rc) pc tty (dawn saved) ms l' r' -> l = l' /\ r = r'.
Proof.
  intros H H'. refine (plays_unique (whole_complex rc) pc tty _ _ ms l r H _ l' r' H').
  - intros s v v' (a & A & _) (b & B & _). congruence.
  - intros i. split; [left; reflexivity|intros _; split; reflexivity].
Qed.
