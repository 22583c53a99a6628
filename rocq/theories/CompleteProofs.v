(** * Proofs about the example program complete.cpp *)

From Coq Require Import Sorted Permutation.
From Verif Require Import Base SplitModel SplitSpec SplitProofs FromStringModel FromStringSpec FromStringProofs HistoryModel HistorySpec HistoryProofs
  StorageModel StorageSpec StorageProofs TerminalModel CompletionModel CompletionSpec CompletionProofs MenuModel SessionModel SessionSpec ResolveProofs SafetyProofs
  ExampleModel ExampleSpec ExampleProofs CompleteModel CompleteSpec.
Open Scope nat_scope.
Open Scope list_scope.

(** ** Reading a Bar *)
Lemma digit_of_spec c d : digit_of c = Some d <-> is_digit c d.
Proof.
  unfold digit_of, is_digit, digit_chars. split.
  - intros H. destruct c as [[] [] [] [] [] [] [] []]; vm_compute in H; try discriminate; injection H as <-; split; try lia; reflexivity.
  - intros (Hd & H). assert (Hl : (Z.to_nat d < 10)%nat).
    { change 10 with (length digit_chars). apply nth_error_Some. unfold digit_chars. rewrite H. discriminate. }
    assert (Hc : (d = 0 \/ d = 1 \/ d = 2 \/ d = 3 \/ d = 4 \/ d = 5 \/ d = 6 \/ d = 7 \/ d = 8 \/ d = 9)%Z) by lia.
    destruct Hc as [->|[->|[->|[->|[->|[->|[->|[->|[->| ->]]]]]]]]]; vm_compute in H; injection H as <-; reflexivity.
Qed.
Lemma read_digits_app t v : digits t v -> forall acc b, (forall c b', b = c :: b' -> digit_of c = None) ->
  read_digits acc (t ++ b) = ((acc * 10 ^ Z.of_nat (length t) + v)%Z, b).
Proof.
  induction 1 as [|c d t v Hc Ht IH]; intros acc b Hb.
  - cbn [app length]. change (Z.of_nat 0) with 0%Z. rewrite Z.pow_0_r. replace (acc * 1 + 0)%Z with acc by lia.
    destruct b as [|c b]; [reflexivity|]. cbn [read_digits]. rewrite (Hb c b eq_refl). reflexivity.
  - cbn [app read_digits length]. rewrite (proj2 (digit_of_spec c d) Hc). rewrite IH by exact Hb. f_equal.
    rewrite Nat2Z.inj_succ, Z.pow_succ_r by lia. lia.
Qed.
Lemma read_digits_inv s : forall acc n rest, read_digits acc s = (n, rest) ->
  exists t v, s = t ++ rest /\ digits t v /\ n = (acc * 10 ^ Z.of_nat (length t) + v)%Z /\ (forall c b', rest = c :: b' -> digit_of c = None).
Proof.
  induction s as [|c s IH]; intros acc n rest H; cbn [read_digits] in H.
  - injection H as <- <-. exists [], 0%Z. split; [reflexivity|]. split; [constructor|]. split; [cbn; lia|discriminate].
  - destruct (digit_of c) as [d|] eqn:Hd.
    + destruct (IH _ _ _ H) as (t & v & -> & Ht & -> & Hr). exists (c :: t), (d * 10 ^ Z.of_nat (length t) + v)%Z.
      split; [reflexivity|]. split; [constructor; [apply digit_of_spec, Hd|exact Ht]|]. split; [|exact Hr].
      cbn [length]. rewrite Nat2Z.inj_succ, Z.pow_succ_r by lia. lia.
    + injection H as <- <-. exists [], 0%Z. split; [reflexivity|]. split; [constructor|]. split; [cbn; lia|].
      intros c' b' E. injection E as -> ->. exact Hd.
Qed.
Lemma skip_space_app a b : Forall FromStringSpec.white a -> (forall c b', b = c :: b' -> space_code c = false) -> skip_space (a ++ b) = b.
Proof.
  induction 1 as [|c a Hc Ha IH]; intros Hb; cbn [app skip_space].
  - destruct b as [|c b]; [reflexivity|]. cbn. rewrite (Hb c b eq_refl). reflexivity.
  - apply space_code_white in Hc. rewrite Hc. apply IH, Hb.
Qed.
Lemma skip_space_inv s : exists a, s = a ++ skip_space s /\ Forall FromStringSpec.white a.
Proof.
  induction s as [|c s (a & IH & Ha)]; [exists []; split; [reflexivity|constructor]|]. cbn [skip_space].
  destruct (space_code c) eqn:Hc; [|exists []; split; [reflexivity|constructor]].
  exists (c :: a). split; [cbn; congruence|]. constructor; [apply space_code_white, Hc|exact Ha].
Qed.
Lemma white_no_digit c : FromStringSpec.white c -> digit_of c = None.
Proof. unfold FromStringSpec.white. cbn. intuition (subst; reflexivity). Qed.
Lemma digit_no_space c d : is_digit c d -> space_code c = false.
Proof.
  intros H. destruct (space_code c) eqn:Hs; [|reflexivity]. apply space_code_white, white_no_digit in Hs. apply digit_of_spec in H. congruence.
Qed.
Lemma is_int_fits z : is_int z = true <-> fits z.
Proof. unfold is_int, fits. rewrite andb_true_iff, !Z.leb_le. reflexivity. Qed.
Lemma bar_read_sign s neg s1 : read_sign s = (neg, s1) ->
  (neg = true /\ s = "-"%char :: s1) \/ (neg = false /\ (s = "+"%char :: s1 \/ s = s1)).
Proof.
  unfold read_sign. intros H. destruct s as [|c s]; [injection H as <- <-; auto|].
  destruct (Ascii.eqb_spec c "-") as [->|]; [injection H as <- <-; auto|].
  destruct (Ascii.eqb_spec c "+") as [->|]; injection H as <- <-; auto.
Qed.
Lemma sign_plain c d s : is_digit c d -> read_sign (c :: s) = (false, c :: s).
Proof.
  intros H. apply digit_of_spec in H. destruct c as [[] [] [] [] [] [] [] []]; vm_compute in H; try discriminate; reflexivity.
Qed.
Lemma bar_text_read s v : custom_from_string bar_read s = COk v <-> bar_text s v.
Proof.
  split.
  - unfold custom_from_string, bar_read. destruct (skip_space_inv s) as (a & Hs & Ha). set (s0 := skip_space s) in *.
    destruct (read_sign s0) as [neg s1] eqn:Hsign. apply bar_read_sign in Hsign.
    destruct s1 as [|c s1']; [discriminate|]. destruct (digit_of c) as [d|] eqn:Hd; [|discriminate].
    destruct (read_digits 0 (c :: s1')) as [n rest] eqn:Hr. destruct (is_int _) eqn:Hi; [|discriminate].
    destruct (ws_eof rest) eqn:Hw; [|discriminate]. intros H. injection H as <-. apply is_int_fits in Hi.
    destruct (read_digits_inv _ _ _ _ Hr) as (t & u & Ht & Hdig & Hn & _). rewrite Z.mul_0_l, Z.add_0_l in Hn. subst u.
    assert (Hne : t <> []).
    { intros ->. cbn in Ht. rewrite <- Ht in Hr. cbn [read_digits] in Hr. rewrite Hd in Hr. cbn in Hr.
      assert (HL : forall s acc n rest, read_digits acc s = (n, rest) -> length rest <= length s).
      { clear. induction s as [|c s IH]; intros acc n rest H; cbn in H; [injection H as <- <-; cbn; lia|].
        destruct (digit_of c); [apply IH in H; cbn; lia|injection H as <- <-; cbn; lia]. }
      apply HL in Hr. cbn in Hr. lia. }
    assert (Hb : Forall FromStringSpec.white rest).
    { unfold ws_eof in Hw. rewrite forallb_forall in Hw. apply Forall_forall. intros x Hx. apply space_code_white, Hw, Hx. }
    destruct Hsign as [(-> & H0)|(-> & [H0|H0])].
    + exists a, ("-"%char :: t), rest. split; [rewrite Hs, H0, Ht; reflexivity|]. split; [exact Ha|]. split; [|exact Hb].
      split; [|exact Hi]. right. right. split; [cbn; auto|]. exists t. split; [reflexivity|]. split; [exact Hne|]. rewrite Z.opp_involutive. exact Hdig.
    + exists a, ("+"%char :: t), rest. split; [rewrite Hs, H0, Ht; reflexivity|]. split; [exact Ha|]. split; [|exact Hb].
      split; [|exact Hi]. right. left. exists t. split; [reflexivity|]. split; [exact Hne|exact Hdig].
    + exists a, t, rest. split; [rewrite Hs, H0, Ht; reflexivity|]. split; [exact Ha|]. split; [|exact Hb].
      split; [|exact Hi]. left. split; [exact Hne|exact Hdig].
  - intros (a & t & b & -> & Ha & (Hi & Hf) & Hb).
    assert (Hbd : forall c b', b = c :: b' -> digit_of c = None).
    { intros c b' ->. inversion Hb; subst. apply white_no_digit. assumption. }
    assert (Hbw : ws_eof b = true).
    { unfold ws_eof. apply forallb_forall. intros x Hx. apply space_code_white. rewrite Forall_forall in Hb. apply Hb, Hx. }
    assert (Hdec : forall r u, decimal r u -> exists c r' d, r = c :: r' /\ is_digit c d).
    { intros r u (Hne & Hr). inversion Hr; subst; [congruence|]. eauto. }
    unfold custom_from_string, bar_read. destruct Hi as [Hi|[(r & -> & Hi)|(_ & r & -> & Hi)]].
    + destruct (Hdec _ _ Hi) as (c & r' & d & -> & Hc). rewrite skip_space_app; [|exact Ha|].
      2: { intros c' b' E. injection E as <- _. eapply digit_no_space; exact Hc. }
      change ((c :: r') ++ b) with (c :: (r' ++ b)). rewrite (sign_plain c d) by exact Hc. rewrite (proj2 (digit_of_spec c d) Hc).
      change (c :: r' ++ b) with ((c :: r') ++ b). rewrite (read_digits_app _ _ (proj2 Hi)) by exact Hbd.
      rewrite Z.mul_0_l, Z.add_0_l. rewrite (proj2 (is_int_fits v) Hf). rewrite Hbw. reflexivity.
    + destruct (Hdec _ _ Hi) as (c & r' & d & -> & Hc). rewrite skip_space_app; [|exact Ha|].
      2: { intros c' b' E. injection E as <- _. reflexivity. }
      cbn [app]. cbn [read_sign Ascii.eqb Bool.eqb]. rewrite (proj2 (digit_of_spec c d) Hc).
      change (c :: r' ++ b) with ((c :: r') ++ b). rewrite (read_digits_app _ _ (proj2 Hi)) by exact Hbd.
      rewrite Z.mul_0_l, Z.add_0_l. rewrite (proj2 (is_int_fits v) Hf). rewrite Hbw. reflexivity.
    + destruct (Hdec _ _ Hi) as (c & r' & d & -> & Hc). rewrite skip_space_app; [|exact Ha|].
      2: { intros c' b' E. injection E as <- _. reflexivity. }
      cbn [app]. cbn [read_sign Ascii.eqb Bool.eqb]. rewrite (proj2 (digit_of_spec c d) Hc).
      change (c :: r' ++ b) with ((c :: r') ++ b). rewrite (read_digits_app _ _ (proj2 Hi)) by exact Hbd.
      rewrite Z.mul_0_l, Z.add_0_l. replace (- - v)%Z with v by lia. rewrite (proj2 (is_int_fits v) Hf). rewrite Hbw. reflexivity.
Qed.
Lemma bar_text_unique s v v' : bar_text s v -> bar_text s v' -> v = v'.
Proof. rewrite <- !bar_text_read. congruence. Qed.

(** ** Sorting *)
Lemma insert_perm x l : Permutation (x :: l) (insert_sorted x l).
Proof.
  induction l as [|y l IH]; cbn; [reflexivity|]. destruct (str_ltb y x); [|reflexivity].
  etransitivity; [apply perm_swap|]. constructor. exact IH.
Qed.
Lemma sort_perm l : Permutation l (sort l).
Proof. induction l as [|x l IH]; cbn; [constructor|]. etransitivity; [|apply insert_perm]. constructor. exact IH. Qed.
Lemma sort_ordered l : in_order (sort l).
Proof. exact (sort_le l). Qed.
Lemma sorted_unique l : forall l', Permutation l l' -> in_order l -> in_order l' -> l = l'.
Proof.
  induction l as [|x l IH]; intros l' Hp Hs Hs'; [apply Permutation_nil in Hp; congruence|].
  destruct l' as [|y l']; [apply Permutation_sym, Permutation_nil in Hp; discriminate|].
  inversion Hs as [|? ? Hl Hx]; subst. inversion Hs' as [|? ? Hl' Hy]; subst.
  assert (x = y).
  { rewrite Forall_forall in Hx, Hy.
    assert (In y (x :: l)) as [?|Hiny] by (eapply Permutation_in; [apply Permutation_sym, Hp|left; reflexivity]); [congruence|].
    assert (In x (y :: l')) as [?|Hinx] by (eapply Permutation_in; [apply Hp|left; reflexivity]); [congruence|].
    destruct (Hx y Hiny) as [?|H1]; [assumption|]. destruct (Hy x Hinx) as [?|H2]; [congruence|].
    exfalso. eapply lex_irrefl, lex_trans; eassumption. }
  subst y. f_equal. apply IH; [eapply Permutation_cons_inv; exact Hp|exact Hl|exact Hl'].
Qed.

(** ** There is only one answer *)
Section Unique.
Context (complex : str -> Z -> Prop) (pc : Z -> str) (Hcomplex : forall s v v', complex s v -> complex s v' -> v = v').
Ltac undoor := repeat match goal with H : door _ _ _ |- _ => inversion H; subst; clear H end.
Lemma effects_unique c g p ws e : effects complex pc c g p ws e -> forall e', effects complex pc c g p ws e' -> e = e'.
Proof.
  assert (Hnil : forall q e0, ~ effects complex pc c g q [] e0) by (intros q e0 H; inversion H).
  intros H. induction H; intros e' He'; inversion He'; subst; undoor; try discriminate; try reflexivity;
    try (exfalso; eapply Hnil; eassumption);
    repeat match goal with
    | H1 : int_text Int ?s ?x, H2 : int_text Int ?s ?y |- _ => assert (x = y) by (eapply int_text_unique; eassumption); subst y; clear H2
    end; try reflexivity; try contradiction; try tauto.
  - assert (l = l0) by (apply sorted_unique; [transitivity ws; [symmetry|]; assumption|assumption|assumption]). subst. reflexivity.
  - match goal with H1 : bar_text _ _, H2 : bar_text _ _ |- _ => rewrite (bar_text_unique _ _ _ H1 H2) end. reflexivity.
  - match goal with H1 : complex _ _, H2 : complex _ _ |- _ => rewrite (Hcomplex _ _ _ H1 H2) end. reflexivity.
  - apply IHeffects. assumption.
  - apply IHeffects. assumption.
  - apply IHeffects. assumption.
  - apply IHeffects. assumption.
  - apply IHeffects. assumption.
  - apply IHeffects. assumption.
Qed.
Lemma effects_global c g p ws e : effects complex pc c g p ws e ->
  ws <> [] /\ ws <> [lit "help"] /\ ws <> [lit "exit"] /\ ws <> [lit "history"] /\ ~ is_recall ws.
Proof.
  assert (Hd : forall q w q', door q w q' -> w <> lit "help" /\ w <> lit "exit" /\ w <> lit "history" /\ w <> lit "!")
    by (intros q w q' H; inversion H; repeat split; discriminate).
  intros H. inversion H; subst; try (repeat split; try discriminate; intros (? & ? & ? & _); discriminate).
  - match goal with H : door _ _ _ |- _ => apply Hd in H as (D1 & D2 & D3 & D4) end. repeat split; try discriminate; try congruence. intros (? & ? & ? & _). discriminate.
  - match goal with H : door _ _ _ |- _ => apply Hd in H as (D1 & D2 & D3 & D4) end. repeat split; try discriminate; try congruence. intros (? & ? & ? & _). congruence.
Qed.
Section Line.
Context (local : bool) (size : nat) (c g : bool).
Notation answers := (answers complex pc local size c g).
Lemma remembered_unique u v l l' : In (v, l) (remembered u) -> In (v, l') (remembered u) -> l = l'.
Proof. unfold remembered. rewrite !number_in. intros (_ & A) (_ & B). congruence. Qed.
Ltac same_words := repeat match goal with H1 : words ?l ?a, H2 : words ?l ?b |- _ =>
  assert_fails (constr_eq a b); let E := fresh in pose proof (words_unique _ _ _ H1 H2) as E; clear H2; try subst; try discriminate end.
Lemma answers_unique u line r : answers u line r -> forall r', answers u line r' -> r = r'.
Proof.
  assert (Hrec : forall s v, int_text UInt s v -> is_recall [lit "!"; s]) by (intros s v H; exists s, v; auto).
  assert (Hr0 : ~ is_recall [] /\ ~ is_recall [lit "help"] /\ ~ is_recall [lit "exit"] /\ ~ is_recall [lit "history"])
    by (repeat split; intros (? & ? & H & _); discriminate).
  destruct Hr0 as (R0 & R1 & R2 & R3).
  intros H. induction H as [u line Hw|u line Hw|u line Hw|u line Hw|u line ws Hw Hr Hl Hf|u line s v Hw Hv Hn Hno|u line s v l r Hw Hv Hin Ha IH|u line ws e Hw He|u line ws Hw N0 N1 N2 N3 N4 Hno];
    intros r' H'; inversion H' as [Xw|Xw|Xw|Xw|ws' Xw Xr Xl Xf|s' v' Xw Xv Xn Xno|s' v' l' r'' Xw Xv Xin Xa|ws' e' Xw Xe|ws' Xw M0 M1 M2 M3 M4 Xno]; subst;
    pose proof (words_unique _ _ _ Hw Xw) as E; try discriminate; try reflexivity;
    try (subst ws'; contradiction); try (subst ws; contradiction); try (exfalso; subst; auto; fail);
    try (exfalso; try subst ws; try subst ws'; match goal with H : effects _ _ _ _ _ _ _ |- _ => apply effects_global in H as (A0 & A1 & A2 & A3 & A4) end; eauto; fail).
  - exfalso. unfold remembered in Xin. rewrite Hl in Xin. destruct Xin.
  - exfalso. apply (f_equal (@tl _)) in E. injection E as <-. rewrite (int_text_unique _ _ _ _ Xv Hv) in Xin. exact (Hno _ Xin).
  - exfalso. subst ws'. eauto.
  - exfalso. unfold remembered in Hin. rewrite Xl in Hin. destruct Hin.
  - exfalso. apply (f_equal (@tl _)) in E. injection E as <-. rewrite (int_text_unique _ _ _ _ Hv Xv) in Hin. exact (Xno _ Hin).
  - apply (f_equal (@tl _)) in E. injection E as <-. rewrite (int_text_unique _ _ _ _ Xv Hv) in Xin. rewrite (remembered_unique _ _ _ _ Xin Hin) in Xa. apply IH, Xa.
  - exfalso. subst ws'. eauto.
  - subst ws'. rewrite (effects_unique _ _ _ _ _ He _ Xe). reflexivity.
  - exfalso. subst ws'. exact (Xno _ He).
  - exfalso. subst ws. eauto.
  - exfalso. subst ws. eauto.
  - exfalso. subst ws'. exact (Hno _ Xe).
Qed.
End Line.
Lemma happens_unique h x own all r : happens complex pc h x own all r -> forall own' all' r', happens complex pc h x own' all' r' -> own = own' /\ all = all' /\ r = r'.
Proof.
  intros H. inversion H; subst; intros own' all' r' H'; inversion H'; subst; try congruence; auto;
    match goal with H1 : o_users h ?i = Some ?u, H2 : o_users h ?i = Some ?u' |- _ => assert (u' = u) by congruence; subst u' end;
    try match goal with H1 : forall r, ~ answers _ _ _ _ _ _ _ _ r, H2 : answers _ _ _ _ _ _ _ _ _ |- _ => exfalso; exact (H1 _ H2) end; auto;
    match goal with H1 : answers _ _ _ _ _ _ _ _ ?a, H2 : answers _ _ _ _ _ _ _ _ ?b |- _ => assert_fails (constr_eq a b); pose proof (answers_unique _ _ _ _ _ _ _ H1 _ H2) as E end;
    try discriminate; injection E; intros; subst; auto.
Qed.
Lemma goes_unique h xs l r : goes_on complex pc h xs l r -> forall l' r', goes_on complex pc h xs l' r' -> l = l' /\ r = r'.
Proof.
  intros H. induction H as [h|h x own all h' xs l r Hh Hg IH|h x xs e Hh]; intros l' r' H'; inversion H' as [|? ? own2 all2 h2 ? l2 r2 Xh Xg|? ? ? ? Xh]; subst.
  - auto.
  - destruct (happens_unique _ _ _ _ _ Hh _ _ _ Xh) as (-> & -> & E). injection E as <-. destruct (IH _ _ Xg) as (-> & ->). auto.
  - destruct (happens_unique _ _ _ _ _ Hh _ _ _ Xh) as (_ & _ & E). discriminate.
  - destruct (happens_unique _ _ _ _ _ Hh _ _ _ Xh) as (_ & _ & E). discriminate.
  - destruct (happens_unique _ _ _ _ _ Hh _ _ _ Xh) as (_ & _ & E). injection E as <-. auto.
Qed.
End Unique.

Section Complete.
Context (P : platform) (rc : str -> option (Z * str)) (pc : Z -> str).
Hypothesis Hstrict : strict P = false.
(** The functions of the program, with any exit action of sessions (telnet sessions have their own). *)
Context (hk : nat -> hook -> list str -> list event -> uresult) (has : hook -> bool).
Hypothesis Hhk : forall sid k args tr, k <> KSesExit -> hk sid k args tr = cx_hook sid k args tr.
Hypothesis Hhas : forall k, has k = match k with KCliEnter | KSesEnter => false | _ => true end.
Definition env_with : env := mkEnv P (fun _ _ => None) (fun n => match n with 0 => bar_read | _ => rc end) (cx_handler pc) hk has.
Notation E := (mkEnv P (fun _ _ => None) (fun n => match n with 0 => bar_read | _ => rc end) (cx_handler pc) hk has).
(** What the exit action of the session does: after the first time it fails (ServerModel.v). *)
Definition bye (i : nat) : str := if Nat.eqb i 0 then lit "Closing App..." ++ nl else lit "Terminating this session..." ++ nl.
Definition exits_well (w : world) : Prop := exists what,
  hk (w_sid w) KSesExit [] (w_trace w ++ [EvHook (w_sid w) KSesExit []]) = mkURes [OOut (bye (w_sid w))] (if w_exit w then UThrow (XStd what) else UReturn).
Notation no w := (EDone false w).
Notation effects := (effects (whole_complex rc) pc).

(** ** The menus *)
Definition main_kids (c g : bool) : list cmd :=
  firstn 14 (cmd_kids cx_root) ++
  (if g then [] else [CFn 25 (lit "color") (negb c) (lit "Enable colors in the cli") [] [] (HUser 14);
                      CFn 26 (lit "nocolor") c (lit "Disable colors in the cli") [] [] (HUser 15)])
  ++ skipn 16 (cmd_kids cx_root).
Definition root_of (c g : bool) : cmd := CMenu 10 (lit "cli") true (lit "(menu)") (lit "cli") (main_kids c g).
Definition cctx (c g : bool) (p : place) : list cmd :=
  match p with Main => [root_of c g] | Sub => [cx_sub; root_of c g] | SubSub => [cx_subsub; cx_sub; root_of c g] end.
Definition cid (p : place) : nat := match p with Main => 10 | Sub => 28 | SubSub => 31 end.
Lemma root_start : cx_root = root_of false false.
Proof. reflexivity. Qed.
Lemma clocated c g p : locate (cid p) [] (root_of c g) = Some (cctx c g p).
Proof. destruct p, c, g; vm_compute; reflexivity. Qed.

(** ** Which commands can be meant *)
Definition could (t : str) (n : nat) (k : cmd) : bool :=
  match k with
  | CFn _ name en _ ps _ _ => en && Nat.eqb n (length ps) && str_eqb name t
  | CFree _ name en _ _ _ | CMenu _ name en _ _ _ => en && str_eqb name t
  end.
Section Scan.
Context (bi : hid -> list value -> world -> hres).
Lemma not_could t rest cx k w : could t (length rest) k = false -> exec E bi (t :: rest) cx k w = no w.
Proof.
  destruct k as [i name en d ps pd h|i name en d pd h|i name en d pr ks]; cbn [could exec exec_leaf]; intros H.
  - destruct en; [|reflexivity]. cbn [negb andb] in *. cbn [length]. rewrite Nat.add_1_r. cbn [Nat.eqb].
    destruct (Nat.eqb (length rest) (length ps)); cbn [negb andb] in *; [|reflexivity]. rewrite H. reflexivity.
  - destruct en; [|reflexivity]. cbn [negb andb] in *. rewrite H. reflexivity.
  - destruct en; [|destruct rest; reflexivity]. cbn [andb] in H. destruct rest; cbn [handle negb]; rewrite H; reflexivity.
Qed.
Lemma try_could t rest cx l w : try_all (exec E bi (t :: rest) cx) l w =
  try_all (exec E bi (t :: rest) cx) (filter (could t (length rest)) l) w.
Proof.
  revert w. induction l as [|k l IH]; intros w; [reflexivity|]. cbn [filter]. destruct (could t (length rest) k) eqn:Hk; cbn [try_all].
  - destruct (exec E bi (t :: rest) cx k w) as [[] w'| | |]; try reflexivity. apply IH.
  - rewrite not_could by exact Hk. apply IH.
Qed.
Lemma bind_no' r (f : world -> eres) : (forall w, f w = no w) -> e_bind r f = r.
Proof. intros H. destruct r as [[|] w| | |]; cbn; auto. Qed.
Lemma cmenu up id name d pr kids anc t rest w :
  handle E bi (t :: rest) up (CMenu id name true d pr kids :: anc) w =
  if str_eqb name t || (up && str_eqb (lit "..") t) then match rest with [] => EDone true (set_cur id w) | _ => scan E bi rest (CMenu id name true d pr kids :: anc) w end
  else no w.
Proof.
  destruct rest as [|r rest].
  - cbn [handle negb]. destruct (str_eqb name t || _); reflexivity.
  - rewrite handle_scan. reflexivity.
Qed.
(** A menu with one or no command meant. *)
Lemma scan_one id name d pr kids anc t rest k w : filter (could t (length rest)) kids = [k] ->
  scan E bi (t :: rest) (CMenu id name true d pr kids :: anc) w =
  e_bind (exec E bi (t :: rest) (CMenu id name true d pr kids :: anc) k w) (fun w1 => match anc with [] => no w1 | _ => handle E bi (t :: rest) true anc w1 end).
Proof. intros H. unfold scan. cbn [cmd_en negb cmd_kids]. rewrite try_could, H. cbn [try_all]. rewrite (bind_no' _ (fun w0 => no w0)) by reflexivity. reflexivity. Qed.
Lemma scan_none id name d pr kids anc t rest w : filter (could t (length rest)) kids = [] ->
  scan E bi (t :: rest) (CMenu id name true d pr kids :: anc) w = match anc with [] => no w | _ => handle E bi (t :: rest) true anc w end.
Proof. intros H. unfold scan. cbn [cmd_en negb cmd_kids]. rewrite try_could, H. reflexivity. Qed.

(** ** What the functions do *)
Definition made (r : cmd) (cur : nat) (evs : list event) (w : world) : world :=
  mkWorld r (w_next w) (w_store w) (w_sid w) cur (w_hist w) (w_exit w) (w_trace w ++ evs).
Definition paint (b : bool) (e : event) : bool := match e with EvCall _ 14 _ => true | EvCall _ 15 _ => false | _ => b end.
Definition col_of (e : effect) (c : bool) : bool := match e with Paint b => b | _ => c end.
Definition gone_of (e : effect) (g : bool) : bool := match e with Drop => true | _ => g end.
Definition own_of (e : effect) : str :=
  match e with Print t => t | Paint true => lit "Colors ON" ++ nl | Paint false => lit "Colors OFF" ++ nl | _ => [] end.
Definition all_of (e : effect) : str := match e with Everyone t => t | _ => [] end.
Definition exit_hook (e : event) : bool := match e with EvHook _ KSesExit _ => true | _ => false end.
Definition says_to (i : nat) (evs : list event) (own all : str) : Prop :=
  (forall j, for_user j evs = if Nat.eqb i j then own else []) /\ for_all evs = all /\ existsb exit_hook evs = false.
Definition quiet_call (c : bool) (evs : list event) (c' : bool) : Prop := existsb overflows evs = false /\ fold_left paint evs c = c'.
Definition performed (c g : bool) (e : effect) (w : world) (r : eres) : Prop :=
  match e with
  | Undefined => exists rt cur evs, r = EDone true (made rt cur evs w) /\ existsb overflows evs = true
  | _ => exists evs, quiet_call c evs (col_of e c) /\ says_to (w_sid w) evs (own_of e) (all_of e) /\
      r = (match e with Throw what => EExc (XStd what) | _ => EDone true end)
            (made (root_of (col_of e c) (gone_of e g)) (match e with Enter p => cid p | _ => w_cur w end) evs w)
  end.
Lemma to_call i n a evs own all : says_to i evs own all -> says_to i (EvCall i n a :: evs) own all.
Proof. intros H. exact H. Qed.
Lemma to_out i s evs own all : says_to i evs own all -> says_to i (EvOut i s :: evs) (s ++ own) all.
Proof.
  intros (H1 & H2). split; [|exact H2]. intros j. cbn [for_user flat_map]. fold (for_user j evs). rewrite H1. destruct (Nat.eqb i j); reflexivity.
Qed.
Lemma to_all i s evs own all : says_to i evs own all -> says_to i (EvBroadcast s :: evs) own (s ++ all).
Proof. intros (H1 & H2 & H3). split; [exact H1|]. split; [|exact H3]. cbn [for_all flat_map]. fold (for_all evs). rewrite H2. reflexivity. Qed.
Lemma to_nil i : says_to i [] [] [].
Proof. split; [intros j; destruct (Nat.eqb i j); reflexivity|split; reflexivity]. Qed.
Lemma to_eq i evs own all own' : says_to i evs own all -> own = own' -> says_to i evs own' all.
Proof. intros H <-. exact H. Qed.

(** Printing only. *)
Fixpoint outs (i : nat) (l : list str) : list event := match l with [] => [] | s :: l' => EvOut i s :: outs i l' end.
Lemma apply_outs l : forall w, apply_ops (map OOut l) w = made (w_root w) (w_cur w) (outs (w_sid w) l) w.
Proof.
  induction l as [|s l IH]; intros w.
  - unfold made. cbn. rewrite app_nil_r. destruct w; reflexivity.
  - cbn [map apply_ops fold_left]. change (fold_left apply_op (map OOut l)) with (apply_ops (map OOut l)). rewrite IH.
    unfold made, out, log. cbn. rewrite <- app_assoc. reflexivity.
Qed.
Lemma to_outs i l : says_to i (outs i l) (concat l) [].
Proof. induction l as [|s l IH]; cbn [outs concat]; [apply to_nil|]. apply to_out, IH. Qed.
Lemma quiet_outs c i l : quiet_call c (outs i l) c.
Proof. induction l as [|s l IH]; [split; reflexivity|]. exact IH. Qed.
(** A function that prints [l]. *)
Lemma run_print c g n args l t w : w_root w = root_of c g ->
  (forall sid tr, cx_handler pc sid n args tr = mkURes (map OOut l) UReturn) ->
  n <> 14 -> n <> 15 -> overflows (EvCall (w_sid w) n args) = false -> concat l = t ->
  performed c g (Print t) w (run_fn E bi (HUser n) args w).
Proof.
  intros Hr Hh H14 H15 Ho Ht. exists (EvCall (w_sid w) n args :: outs (w_sid w) l). cbn [own_of all_of col_of gone_of].
  destruct (quiet_outs c (w_sid w) l) as (Q1 & Q2).
  split; [split; [cbn [existsb]; rewrite Ho; exact Q1|]|split].
  - cbn [fold_left]. replace (paint c (EvCall (w_sid w) n args)) with c; [exact Q2|]. unfold paint.
    do 14 (destruct n as [|n]; [reflexivity|]). destruct n as [|[|n]]; [congruence|congruence|reflexivity].
  - subst t. apply to_call, to_outs.
  - unfold run_fn, call_user. cbn [e_handler cx_env]. rewrite Hh. cbn [ur_ops ur_end]. rewrite apply_outs. unfold made, log. cbn.
    rewrite Hr, <- app_assoc. reflexivity.
Qed.
Lemma run_undef c g n args w : (forall sid tr, ur_end (cx_handler pc sid n args tr) = UReturn) ->
  (forall sid tr, exists l, ur_ops (cx_handler pc sid n args tr) = map OOut l) ->
  overflows (EvCall (w_sid w) n args) = true -> performed c g Undefined w (run_fn E bi (HUser n) args w).
Proof.
  intros Hh Hl Ho. unfold performed, run_fn, call_user. cbn [e_handler cx_env]. rewrite Hh.
  destruct (Hl (w_sid (log (EvCall (w_sid w) n args) w)) (w_trace (log (EvCall (w_sid w) n args) w))) as (l & ->). rewrite apply_outs.
  exists (w_root w), (w_cur w), (EvCall (w_sid w) n args :: outs (w_sid w) l). split.
  - unfold made, log. cbn. rewrite <- app_assoc. reflexivity.
  - cbn [existsb]. rewrite Ho. reflexivity.
Qed.
Lemma run_every c g w : w_root w = root_of c g -> performed c g (Everyone (lit "Hello, everybody" ++ nl)) w (run_fn E bi (HUser 2) [] w).
Proof.
  intros Hr. exists [EvCall (w_sid w) 2 []; EvBroadcast (lit "Hello, everybody" ++ nl)]. split; [split; reflexivity|]. split.
  - apply to_call. exact (to_all (w_sid w) (lit "Hello, everybody" ++ nl) [] [] [] (to_nil _)).
  - unfold run_fn, call_user. cbn [e_handler cx_env cx_handler ur_ops ur_end apply_ops fold_left apply_op].
    unfold made, log. cbn [w_root w_next w_store w_sid w_cur w_hist w_exit w_trace col_of gone_of]. rewrite Hr, <- app_assoc. reflexivity.
Qed.
Lemma run_error c g w : w_root w = root_of c g -> performed c g (Throw (lit "Error in cmd")) w (run_fn E bi (HUser 7) [] w).
Proof.
  intros Hr. eexists. split; [|split]; [| |cbn; unfold made, log; cbn; rewrite Hr; reflexivity].
  - split; reflexivity.
  - apply to_call, to_nil.
Qed.
Lemma run_color w : w_root w = root_of false false -> performed false false (Paint true) w (run_fn E bi (HUser 14) [] w).
Proof.
  intros Hr. exists [EvCall (w_sid w) 14 []; EvOut (w_sid w) (lit "Colors ON" ++ nl)]. split; [split; reflexivity|]. split.
  - apply to_call. eapply to_eq; [apply to_out, to_nil|apply app_nil_r].
  - unfold run_fn, call_user. cbn [e_handler cx_env cx_handler ur_ops ur_end apply_ops fold_left apply_op].
    unfold set_root, out, log. cbn [w_root w_next w_store w_sid w_cur w_hist w_exit w_trace]. rewrite Hr.
    unfold made. cbn [col_of gone_of]. rewrite <- app_assoc. reflexivity.
Qed.
Lemma run_nocolor w : w_root w = root_of true false -> performed true false (Paint false) w (run_fn E bi (HUser 15) [] w).
Proof.
  intros Hr. exists [EvCall (w_sid w) 15 []; EvOut (w_sid w) (lit "Colors OFF" ++ nl)]. split; [split; reflexivity|]. split.
  - apply to_call. eapply to_eq; [apply to_out, to_nil|apply app_nil_r].
  - unfold run_fn, call_user. cbn [e_handler cx_env cx_handler ur_ops ur_end apply_ops fold_left apply_op].
    unfold set_root, out, log. cbn [w_root w_next w_store w_sid w_cur w_hist w_exit w_trace]. rewrite Hr.
    unfold made. cbn [col_of gone_of]. rewrite <- app_assoc. reflexivity.
Qed.
Lemma run_remove c g w : w_root w = root_of c g -> performed c g Drop w (run_fn E bi (HUser 16) [] w).
Proof.
  intros Hr. exists [EvCall (w_sid w) 16 []]. split; [split; reflexivity|]. split.
  - apply to_call, to_nil.
  - unfold run_fn, call_user. cbn [e_handler cx_env cx_handler ur_ops ur_end apply_ops fold_left apply_op].
    unfold set_root, out, log. cbn [w_root w_next w_store w_sid w_cur w_hist w_exit w_trace]. rewrite Hr.
    unfold made. cbn [col_of gone_of]. destruct c, g; reflexivity.
Qed.
Lemma run_enter c g p w : w_root w = root_of c g -> performed c g (Enter p) w (EDone true (set_cur (cid p) w)).
Proof.
  intros Hr. exists []. split; [split; reflexivity|]. split; [apply to_nil|]. unfold made, set_cur. cbn. rewrite app_nil_r, <- Hr. reflexivity.
Qed.

(** ** All words in all places *)
Definition coutcome (c g : bool) (p : place) (ws : list str) (w : world) (r : eres) : Prop :=
  (exists e, effects c g p ws e /\ performed c g e w r) \/ ((forall e, ~ effects c g p ws e) /\ r = no w).
Lemma exec_fn i t d ps pd n rest cx w : length rest = length ps ->
  exec E bi (t :: rest) cx (CFn i t true d ps pd (HUser n)) w =
  match convert_all E ps rest with COk vs => run_fn E bi (HUser n) vs w | CBad => no w | CUB => EUB end.
Proof.
  intros H. cbn [exec exec_leaf negb length]. rewrite H, Nat.add_1_r, Nat.eqb_refl, str_eqb_refl. reflexivity.
Qed.
Lemma int_conv r : readable P r -> (exists v, int_from_string P Int r = COk v /\ int_text Int r v) \/
  (int_from_string P Int r = CBad /\ forall v, ~ int_text Int r v).
Proof.
  intros Hr. destruct (int_types P Int r Hr (or_introl Hstrict)) as (Hi & Hub).
  destruct (int_from_string P Int r) as [v| |] eqn:Hc; [|right|congruence].
  - left. exists v. split; [reflexivity|]. apply Hi. reflexivity.
  - split; [reflexivity|]. intros v Hv. apply Hi in Hv. discriminate.
Qed.
Lemma ceffects_some c g p e : ~ effects c g p [] e.
Proof. intros H. inversion H. Qed.
Ltac refute := right; split; [|reflexivity]; let HD := fresh in intros ? HD; inversion HD; subst;
  repeat match goal with H : door _ _ _ |- _ => inversion H; subst; clear H end;
  repeat match goal with H : str_eqb _ _ = false |- _ => vm_compute in H end;
  try discriminate; try congruence; try (eapply ceffects_some; eassumption); try (eapply fst; eassumption).
Ltac compute_filter := cbn [length];
  try match goal with |- context [length ?l] => is_var l; let n := fresh in generalize (length l); intros n; destruct n as [|[|[|[|n]]]] end;
  repeat match goal with c : bool |- _ => destruct c end; vm_compute; reflexivity.
Ltac one k := rewrite (scan_one _ _ _ _ _ _ _ _ k) by compute_filter; rewrite ?bind_no' by reflexivity.
Ltac none := rewrite scan_none by compute_filter.
Ltac name t a := let H := fresh in destruct (str_eqb (lit a) t) eqn:H; [apply str_eqb_eq in H; subst t|].
Ltac yes c := left; eexists; split; [eapply c; eassumption|].
Ltac prints n args l := apply (run_print _ _ n args l);
  [assumption|intros ? ?; reflexivity|discriminate|discriminate|reflexivity|cbn [concat]; rewrite ?app_nil_r; rewrite <- ?app_assoc; try reflexivity].
Ltac conv := rewrite exec_fn by reflexivity; cbn [convert_all convert e_plat e_custom cx_env cmap cbind];
  repeat match goal with H : Forall _ (_ :: _) |- _ => inversion H; subst; clear H end.
Ltac convi r := let v := fresh "v" in let Hv := fresh "Hv" in
  destruct (int_conv r) as [(v & -> & Hv)|(-> & Hv)]; [assumption|cbn [convert_all convert e_plat e_custom cx_env cmap cbind]|
    cbn [convert_all convert e_plat e_custom cx_env cmap cbind]; refute; eapply Hv; eassumption].
Lemma no_could t n kids : Forall (fun k => str_eqb (cmd_name k) t = false) kids -> filter (could t n) kids = [].
Proof.
  induction 1 as [|k l Hk _ IH]; [reflexivity|]. cbn [filter]. rewrite IH. destruct k; cbn [could cmd_name] in *; rewrite Hk, andb_false_r; reflexivity.
Qed.
Ltac not_named := repeat (apply Forall_cons; [cbn [cmd_name]; match goal with H : ?x = false |- ?x = false => exact H end|]); apply Forall_nil.
Lemma main_scan c g t rest w : w_root w = root_of c g -> Forall (readable P) rest -> t <> lit "sub" ->
  coutcome c g Main (t :: rest) w (scan E bi (t :: rest) (cctx c g Main) w).
Proof.
  intros Hroot Hrest Hsub.
  change (cctx c g Main) with [CMenu 10 (lit "cli") true (lit "(menu)") (lit "cli") (main_kids c g)].
  name t "free_function"%string.
  { destruct rest as [|r [|r' rest]]; [none; refute| |none; refute].
    one (CFn 11 (lit "free_function") true (lit "Call a free function that echoes the parameter passed") [PInt Int] [] (HUser 0)). conv.
    convi r. yes e_free. prints 0 [VInt v] [print_int v; nl]. }
  name t "hello"%string.
  { destruct rest as [|r rest]; [|none; refute]. one (CFn 12 (lit "hello") true (lit "Print hello world") [] [] (HUser 1)). conv.
    yes e_hello. prints 1 (@nil value) [lit "Hello, world" ++ nl]. }
  name t "hello_everysession"%string.
  { destruct rest as [|r rest]; [|none; refute].
    one (CFn 13 (lit "hello_everysession") true (lit "Print hello everybody on all open sessions") [] [] (HUser 2)). conv.
    yes e_every. apply run_every. assumption. }
  name t "answer"%string.
  { destruct rest as [|r [|r' rest]]; [none; refute| |none; refute].
    one (CFn 14 (lit "answer") true (lit "Print the answer to Life, the Universe and Everything") [PInt Int] [] (HUser 3)). conv.
    convi r. yes e_answer. prints 3 [VInt v] [lit "The answer is: "; print_int v; nl]. }
  name t "file"%string.
  { destruct rest as [|r [|r' rest]]; [none; refute| |none; refute].
    one (CFn 15 (lit "file") true (lit "Print the file descriptor specified") [PInt Int] [lit "file_descriptor"] (HUser 4)). conv.
    convi r. yes e_file. prints 4 [VInt v] [lit "file descriptor: "; print_int v; nl]. }
  name t "echo"%string.
  { destruct rest as [|r [|r' [|r'' rest]]]; [none; refute| | |none; refute].
    - one (CFn 16 (lit "echo") true (lit "Print the string passed as parameter") [PString] [lit "string to echo"] (HUser 5)). conv.
      yes e_echo. prints 5 [VStr r] [r; nl].
    - one (CFn 17 (lit "echo") true (lit "Print the strings passed as parameter") [PString; PString]
        [lit "first string to echo"; lit "second string to echo"] (HUser 6)). conv.
      yes e_echo2. prints 6 [VStr r; VStr r'] [r; lit " "; r'; nl]. }
  name t "error"%string.
  { destruct rest as [|r rest]; [|none; refute].
    one (CFn 18 (lit "error") true (lit "Throw an exception in the command handler") [] [] (HUser 7)). conv.
    yes e_error. apply run_error. assumption. }
  name t "reverse"%string.
  { destruct rest as [|r [|r' rest]]; [none; refute| |none; refute].
    one (CFn 19 (lit "reverse") true (lit "Print the reverse string") [PString] [lit "string_to_revert"] (HUser 8)). conv.
    yes e_reverse. prints 8 [VStr r] [rev r; nl]. }
  name t "add"%string.
  { destruct rest as [|r [|r' [|r'' [|r3 rest]]]]; [none; refute|none; refute| | |none; refute].
    - one (CFn 20 (lit "add") true (lit "Print the sum of the two numbers") [PInt Int; PInt Int] [lit "first_term"; lit "second_term"] (HUser 9)). conv.
      convi r. convi r'. destruct (is_int (v + v0)) eqn:Hf.
      + left. eexists. split; [eapply e_add; [exact Hv|exact Hv0|apply is_int_fits, Hf]|]. apply (run_print _ _ 9 [VInt v; VInt v0]
          [print_int v; lit " + "; print_int v0; lit " = "; print_int (v + v0); nl]); [assumption|reflexivity|discriminate|discriminate| |].
        * cbn [overflows]. rewrite Hf. reflexivity.
        * cbn [concat]. rewrite app_nil_r. reflexivity.
      + left. eexists. split; [eapply e_add_ub; [exact Hv|exact Hv0|rewrite <- is_int_fits; congruence]|]. apply run_undef; [reflexivity|intros; eexists; reflexivity|].
        cbn [overflows]. rewrite Hf. reflexivity.
    - one (CFn 21 (lit "add") true (lit "Print the sum of the three numbers") [PInt Int; PInt Int; PInt Int] [] (HUser 10)). conv.
      convi r. convi r'. convi r''. destruct (is_int (v + v0) && is_int (v + v0 + v1)) eqn:Hf.
      + left. eexists. pose proof (andb_prop _ _ Hf) as (Hf1 & Hf2). split; [eapply e_add3; [exact Hv|exact Hv0|exact Hv1|apply is_int_fits, Hf1|apply is_int_fits, Hf2]|].
        apply (run_print _ _ 10 [VInt v; VInt v0; VInt v1]
          [print_int v; lit " + "; print_int v0; lit " + "; print_int v1; lit " = "; print_int (v + v0 + v1); nl]); [assumption|reflexivity|discriminate|discriminate| |].
        * cbn [overflows]. rewrite Hf. reflexivity.
        * cbn [concat]. rewrite app_nil_r. reflexivity.
      + left. eexists. split; [eapply e_add3_ub; [exact Hv|exact Hv0|exact Hv1|]|apply run_undef; [reflexivity|intros; eexists; reflexivity|]].
        * rewrite <- !is_int_fits. intros (A & B). rewrite A, B in Hf. discriminate.
        * cbn [overflows]. rewrite Hf. reflexivity. }
  name t "sort"%string.
  { one (CFree 22 (lit "sort") true (lit "Alphabetically sort a list of words") [lit "list of strings separated by space"] (HUser 11)).
    left. eexists. split; [apply (e_sort _ _ _ _ rest (sort rest)); [apply sort_perm|apply sort_ordered]|].
    cbn [exec exec_leaf negb]. rewrite str_eqb_refl. change (run_free E (HUser 11) rest w) with (run_fn E bi (HUser 11) [VList rest] w).
    apply (run_print _ _ 11 [VList rest] ([lit "sorted list: "] ++ map (fun s => s ++ lit " ") (sort rest) ++ [nl]));
      [assumption|reflexivity|discriminate|discriminate|reflexivity|]. rewrite !concat_app. cbn [concat]. rewrite !app_nil_r. reflexivity. }
  name t "bar"%string.
  { destruct rest as [|r [|r' rest]]; [none; refute| |none; refute].
    one (CFn 23 (lit "bar") true (lit "Custom type") [PCustom 0 (lit "<bar>")] [] (HUser 12)). conv.
    destruct (custom_from_string bar_read r) as [v| |] eqn:Hc; cbn [cmap cbind].
    - apply bar_text_read in Hc. yes e_bar. prints 12 [VCustom v] [lit "You entered bar: "; print_int v; nl].
    - refute. match goal with H : bar_text _ _ |- _ => apply bar_text_read in H; congruence end.
    - destruct (custom_no_ub _ _ _ Hc). }
  name t "complex"%string.
  { destruct rest as [|r [|r' rest]]; [none; refute| |none; refute].
    one (CFn 24 (lit "complex") true (lit "Print a complex number") [PCustom 1 (lit "<complex>")] [] (HUser 13)). conv.
    destruct (custom_from_string rc r) as [v| |] eqn:Hc; cbn [cmap cbind].
    - apply custom_exact in Hc. yes e_complex. prints 13 [VCustom v] [lit "You entered complex : "; pc v; nl].
    - refute. match goal with H : whole_complex _ _ _ |- _ => apply custom_exact in H; congruence end.
    - destruct (custom_no_ub _ _ _ Hc). }
  name t "color"%string.
  { destruct rest as [|r rest]; [|none; refute]. destruct g; [none; refute|]. destruct c; [none; refute|].
    one (CFn 25 (lit "color") true (lit "Enable colors in the cli") [] [] (HUser 14)). conv.
    left. eexists. split; [apply e_color; reflexivity|]. apply run_color. assumption. }
  name t "nocolor"%string.
  { destruct rest as [|r rest]; [|none; refute]. destruct g; [none; refute|]. destruct c; [|none; refute].
    one (CFn 26 (lit "nocolor") true (lit "Disable colors in the cli") [] [] (HUser 15)). conv.
    left. eexists. split; [apply e_nocolor; reflexivity|]. apply run_nocolor. assumption. }
  name t "removecmds"%string.
  { destruct rest as [|r rest]; [|none; refute].
    one (CFn 27 (lit "removecmds") true (lit "Remove both color and nocolor commands from the menu") [] [] (HUser 16)). conv.
    yes e_remove. apply run_remove. assumption. }
  assert (Hsub' : str_eqb (lit "sub") t = false) by (destruct (str_eqb (lit "sub") t) eqn:Hx; [apply str_eqb_eq in Hx; congruence|reflexivity]).
  rewrite scan_none.
  - refute.
  - apply no_could. destruct c, g; unfold main_kids, cx_root, cx_sub, make_menu; cbn [cmd_kids firstn skipn app]; not_named.
Qed.
Lemma enter_scan c g p t rest q w : w_root w = root_of c g -> Forall (readable P) rest -> door p t q ->
  (forall e, effects c g p (t :: rest) e -> exists q', door p t q' /\ (rest = [] /\ e = Enter q' \/ effects c g q' rest e)) ->
  (rest <> [] -> coutcome c g q rest w (scan E bi rest (cctx c g q) w)) ->
  coutcome c g p (t :: rest) w (match rest with [] => EDone true (set_cur (cid q) w) | _ => scan E bi rest (cctx c g q) w end).
Proof.
  intros Hroot Hrest Hd Honly IH. destruct rest as [|r rest].
  - left. exists (Enter q). split; [apply e_enter, Hd|]. apply run_enter, Hroot.
  - destruct IH as [(e & He & Hp)|(Hno & ->)]; [discriminate| |].
    + left. exists e. split; [eapply e_through; eassumption|exact Hp].
    + right. split; [|reflexivity]. intros e He. destruct (Honly e He) as (q' & Hd' & [(? & _)|H]); [discriminate|].
      assert (q' = q) as -> by (clear - Hd Hd'; inversion Hd; subst; inversion Hd'; reflexivity). exact (Hno e H).
Qed.
Lemma performed_bind c g e w r f : e <> Undefined -> performed c g e w r -> performed c g e w (e_bind r f).
Proof. intros Hne. destruct e; try congruence; intros (evs & A & B & ->); exists evs; (split; [exact A|split; [exact B|reflexivity]]). Qed.
Ltac oneu k := rewrite (scan_one _ _ _ _ _ _ _ _ k) by compute_filter.
Ltac up := unfold root_of, cx_sub, make_menu; rewrite cmenu;
  match goal with |- context [if ?b then _ else _] => change b with false end; cbn iota.
Ltac sole := let e := fresh in let H := fresh in intros e H; inversion H; subst;
  repeat match goal with H : door _ _ _ |- _ => inversion H; subst; clear H end; try discriminate; (eexists; split; [first [exact down1|exact down2|exact up1|exact up1'|exact up2|exact up2']|first [left; split; reflexivity|right; assumption]]).
Lemma place_scan c g ws : ws <> [] -> Forall (readable P) ws -> forall p w, w_root w = root_of c g ->
  coutcome c g p ws w (scan E bi ws (cctx c g p) w).
Proof.
  induction ws as [|t rest IH]; [congruence|]. intros _ Hws p w Hroot. inversion Hws as [|? ? Ht Hrest]; subst.
  destruct p.
  - destruct (str_eqb (lit "sub") t) eqn:Hs.
    2: { apply main_scan; [exact Hroot|exact Hrest|]. intros ->. rewrite str_eqb_refl in Hs. discriminate. }
    apply str_eqb_eq in Hs. subst t.
    change (cctx c g Main) with [CMenu 10 (lit "cli") true (lit "(menu)") (lit "cli") (main_kids c g)]. one cx_sub.
    unfold cx_sub, make_menu. cbn [exec]. rewrite cmenu, str_eqb_refl. cbn [orb].
    apply (enter_scan c g Main (lit "sub") rest Sub); [exact Hroot|exact Hrest|exact down1|sole|intros Hne; apply IH; assumption].
  - change (cctx c g Sub) with [CMenu 28 (lit "sub") true (lit "Enter a submenu") (lit "submenu") (cmd_kids cx_sub); root_of c g].
    name t "hello"%string.
    { destruct rest as [|r rest]; [|none; up; refute].
      oneu (CFn 29 (lit "hello") true (lit "Print hello world in the submenu") [] [] (HUser 17)). conv.
      left. eexists. split; [apply e_sub|]. apply performed_bind; [discriminate|]. prints 17 (@nil value) [lit "Hello, submenu world" ++ nl]. }
    name t "demo"%string.
    { destruct rest as [|r rest]; [|none; up; refute].
      oneu (CFn 30 (lit "demo") true (lit "Print a demo string") [] [] (HUser 18)). conv.
      left. eexists. split; [apply e_demo|]. apply performed_bind; [discriminate|]. prints 18 (@nil value) [lit "This is a sample!" ++ nl]. }
    name t "subsub"%string.
    { oneu cx_subsub. rewrite bind_no'.
      2: { intros w1. up. reflexivity. }
      unfold cx_subsub, make_menu. cbn [exec]. rewrite cmenu, str_eqb_refl. cbn [orb].
      apply (enter_scan c g Sub (lit "subsub") rest SubSub); [exact Hroot|exact Hrest|constructor|sole|intros Hne; apply IH; assumption]. }
    rewrite scan_none.
    2: { apply no_could. unfold cx_sub, cx_subsub, make_menu. cbn [cmd_kids]. not_named. }
    unfold root_of. rewrite cmenu. cbn [andb].
    name t "cli"%string.
    { cbn [orb].
      apply (enter_scan c g Sub (lit "cli") rest Main); [exact Hroot|exact Hrest|constructor|sole|intros Hne; apply IH; assumption]. }
    cbn [orb].
    name t ".."%string.
    {      apply (enter_scan c g Sub (lit "..") rest Main); [exact Hroot|exact Hrest|constructor|sole|intros Hne; apply IH; assumption]. }
    refute.
  - change (cctx c g SubSub) with [CMenu 31 (lit "subsub") true (lit "Enter a submenu of second level") (lit "subsub") (cmd_kids cx_subsub); cx_sub; root_of c g].
    name t "hello"%string.
    { destruct rest as [|r rest]; [|none; up; refute].
      oneu (CFn 32 (lit "hello") true (lit "Print hello world in the sub-submenu") [] [] (HUser 19)). conv.
      left. eexists. split; [apply e_subsub|]. apply performed_bind; [discriminate|]. prints 19 (@nil value) [lit "Hello, subsubmenu world" ++ nl]. }
    rewrite scan_none.
    2: { apply no_could. unfold cx_subsub, make_menu. cbn [cmd_kids]. not_named. }
    unfold cx_sub, make_menu. rewrite cmenu. cbn [andb].
    name t "sub"%string.
    { cbn [orb].
      apply (enter_scan c g SubSub (lit "sub") rest Sub); [exact Hroot|exact Hrest|constructor|sole|intros Hne; apply IH; assumption]. }
    cbn [orb].
    name t ".."%string.
    {      apply (enter_scan c g SubSub (lit "..") rest Sub); [exact Hroot|exact Hrest|constructor|sole|intros Hne; apply IH; assumption]. }
    refute.
Qed.
End Scan.

(** ** The global menu *)
Ltac compute_filter := cbn [length];
  try match goal with |- context [length ?l] => is_var l; let n := fresh in generalize (length l); intros n; destruct n as [|[|[|[|n]]]] end;
  repeat match goal with c : bool |- _ => destruct c end; vm_compute; reflexivity.
Ltac one k := rewrite (scan_one _ _ _ _ _ _ _ _ _ k) by compute_filter; rewrite ?bind_no' by reflexivity.
Ltac none := rewrite scan_none by compute_filter.
Ltac name t a := let H := fresh in destruct (str_eqb (lit a) t) eqn:H; [apply str_eqb_eq in H; subst t|].
Ltac not_named := repeat (apply Forall_cons; [cbn [cmd_name]; match goal with H : ?x = false |- ?x = false => exact H end|]); apply Forall_nil.
Lemma global_scan rec t rest w : scan E (builtin E rec) (t :: rest) [global_menu] w =
  if str_eqb (lit "help") t then match rest with [] => run_fn E (builtin E rec) HHelp [] w | _ => no w end
  else if str_eqb (lit "exit") t then match rest with [] => run_fn E (builtin E rec) HExit [] w | _ => no w end
  else if str_eqb (lit "history") t then match rest with [] => run_fn E (builtin E rec) HHistory [] w | _ => no w end
  else if str_eqb (lit "!") t then match rest with
    | [s] => match int_from_string P UInt s with COk v => run_fn E (builtin E rec) HBang [VInt v] w | CBad => no w | CUB => EUB end
    | _ => no w end
  else no w.
Proof.
  unfold global_menu.
  name t "help"%string.
  { destruct rest as [|r rest]; [|none; reflexivity]. one (CFn 1 (lit "help") true (lit "This help message") [] [] HHelp). reflexivity. }
  name t "exit"%string.
  { destruct rest as [|r rest]; [|none; reflexivity]. one (CFn 2 (lit "exit") true (lit "Quit the session") [] [] HExit). reflexivity. }
  name t "history"%string.
  { destruct rest as [|r rest]; [|none; reflexivity]. one (CFn 3 (lit "history") true (lit "Show the history") [] [] HHistory). reflexivity. }
  name t "!"%string.
  { destruct rest as [|r [|r' rest]]; [none; reflexivity| |none; reflexivity].
    one (CFn 4 (lit "!") true (lit "Exec a command by index in the history") [PInt UInt] [lit "history entry index"] HBang).
    cbn [exec exec_leaf negb length Nat.eqb Nat.add]. rewrite str_eqb_refl. cbn [convert_all convert e_plat cx_env]. destruct (int_from_string P UInt r); reflexivity. }
  rewrite scan_none; [reflexivity|]. apply no_could. not_named.
Qed.

(** ** Histories *)
Definition hist_of (size : nat) (u : user) : history := mkHistory size (rev (u_lines u)) 0 (u_typed u) false (u_first u).
Notation fine := (fun l => readable P l /\ one_line l).
Definition uok (size : nat) (u : user) : Prop := length (u_lines u) <= size /\ (0 <= u_first u)%Z /\ Forall fine (u_lines u).
Lemma rev_tl {A} (l : list A) : rev (tl l) = removelast (rev l).
Proof. destruct l as [|a l]; [reflexivity|]. cbn [tl rev]. rewrite removelast_last. reflexivity. Qed.
Lemma new_keeps size line u : 1 <= size -> new_command (hist_of size u) line = Some (hist_of size (keeps size line u)).
Proof.
  intros Hs. unfold new_command, keeps, hist_of. cbn [h_browse h_buf h_max h_cmds h_oldest].
  destruct (rev (u_lines u)) as [|last r] eqn:Hr; cbn [h_browse h_buf h_max h_cmds h_oldest].
  - unfold insert. cbn [h_buf h_max length]. destruct (Nat.ltb_spec size 1); [lia|]. reflexivity.
  - destruct (str_eqb last line) eqn:He.
    + apply str_eqb_eq in He. subst last. destruct (list_eq_dec ascii_dec line line); [|congruence]. cbn. rewrite Hr. reflexivity.
    + destruct (list_eq_dec ascii_dec last line) as [->|]; [rewrite str_eqb_refl in He; discriminate|].
      unfold insert. cbn [h_buf h_max h_cur h_cmds h_browse h_oldest].
      assert (Hl : length (line :: last :: r) = S (length (u_lines u))) by (rewrite <- (rev_length (u_lines u)), Hr; reflexivity).
      rewrite Hl. destruct (Nat.ltb size (S (length (u_lines u)))); cbn [u_place u_first u_lines u_typed h_max h_buf h_cur h_cmds h_oldest with_buf].
      * rewrite rev_app_distr, rev_tl, Hr. reflexivity.
      * rewrite rev_app_distr, Hr. reflexivity.
Qed.
Lemma keeps_last size line u : exists l, u_lines (keeps size line u) = l ++ [line].
Proof.
  unfold keeps. destruct (rev (u_lines u)) as [|last r] eqn:Hr; [exists []; reflexivity|].
  destruct (list_eq_dec ascii_dec last line) as [->|].
  - exists (rev r). cbn. rewrite <- (rev_involutive (u_lines u)), Hr. reflexivity.
  - destruct (Nat.ltb _ _); eexists; reflexivity.
Qed.
Lemma forget_keeps size line u : forget_latest (hist_of size (keeps size line u)) = Some (hist_of size (forgets size line u)).
Proof.
  destruct (keeps_last size line u) as (l & Hl). unfold forget_latest, forgets, hist_of. cbn [h_buf u_lines u_typed u_first]. rewrite Hl.
  rewrite rev_app_distr, removelast_last. reflexivity.
Qed.
Lemma tl_len {A} (l : list A) : length (tl l) = length l - 1.
Proof. destruct l; cbn; lia. Qed.
Lemma keeps_ok size line u : 1 <= size -> uok size u -> readable P line -> one_line line -> uok size (keeps size line u).
Proof.
  intros Hs (A & B & C) H1 H2. unfold keeps. destruct (rev (u_lines u)) as [|last r] eqn:Hr; [split; [cbn; lia|]; split; [exact B|]|].
  - constructor; [repeat split; assumption|constructor].
  - destruct (list_eq_dec ascii_dec last line); [split; [exact A|]; split; [exact B|exact C]|].
    destruct (Nat.ltb_spec size (S (length (u_lines u)))).
    + split; [cbn; rewrite app_length, tl_len; cbn; lia|]. split; [cbn; lia|]. apply Forall_app. split; [|constructor; [repeat split; assumption|constructor]].
      destruct (u_lines u); [constructor|]. inversion C; assumption.
    + split; [cbn; rewrite app_length; cbn; lia|]. split; [exact B|]. apply Forall_app. split; [exact C|constructor; [repeat split; assumption|constructor]].
Qed.
Lemma Forall_removelast {A} (Q : A -> Prop) l : Forall Q l -> Forall Q (removelast l).
Proof. intros H. rewrite removelast_firstn_len. rewrite Forall_forall in *. intros x Hx. apply H. rewrite <- (firstn_skipn (pred (length l)) l). apply in_or_app. left. exact Hx. Qed.
Lemma removelast_len {A} (l : list A) : length (removelast l) = length l - 1.
Proof. rewrite removelast_firstn_len, firstn_length. lia. Qed.
Lemma forgets_ok size line u : 1 <= size -> uok size u -> uok size (forgets size line u).
Proof.
  intros Hs (A & B & C). unfold forgets, keeps. destruct (rev (u_lines u)) as [|last r] eqn:E; [split; [cbn; lia|]; split; [exact B|constructor]|].
  destruct (list_eq_dec ascii_dec last line) as [->|].
  - unfold uok. cbn [u_lines u_first]. split; [rewrite removelast_len; lia|]. split; [exact B|apply Forall_removelast, C].
  - destruct (Nat.ltb_spec size (S (length (u_lines u)))); unfold uok; cbn [u_lines u_first]; rewrite removelast_last.
    + split; [rewrite tl_len; lia|]. split; [lia|]. destruct (u_lines u); [constructor|]. inversion C; assumption.
    + auto.
Qed.
Lemma view_hist size u : view (hist_of size u) = remembered u.
Proof. unfold view, hist_of, remembered. cbn. rewrite rev_involutive. reflexivity. Qed.
Lemma skipn_tl_S {A} n : forall l : list A, tl (skipn n l) = skipn (S n) l.
Proof. induction n as [|n IH]; intros l; [reflexivity|]. destruct l as [|x l]; [reflexivity|]. cbn [skipn]. apply IH. Qed.
Lemma load_hist_gen size cmds : 1 <= size -> forall pre,
  load_commands (mkHistory size (rev (lastn size pre)) 0 0 false (Z.of_nat (length pre - size))) cmds =
  mkHistory size (rev (lastn size (pre ++ cmds))) 0 0 false (Z.of_nat (length (pre ++ cmds) - size)).
Proof.
  intros Hs. unfold load_commands. induction cmds as [|x cmds IH]; intros pre; [rewrite app_nil_r; reflexivity|]. cbn [fold_left].
  replace (pre ++ x :: cmds) with ((pre ++ [x]) ++ cmds) by (rewrite <- app_assoc; reflexivity). rewrite <- IH. f_equal.
  unfold insert. cbn [h_max h_buf h_cur h_cmds h_browse h_oldest length]. rewrite rev_length.
  assert (Hl : length (lastn size pre) = Nat.min size (length pre)) by (unfold lastn; rewrite skipn_length; lia). rewrite Hl.
  destruct (Nat.ltb_spec size (S (Nat.min size (length pre)))).
  - f_equal.
    + change (x :: rev (lastn size pre)) with ([x] ++ rev (lastn size pre)). unfold lastn. rewrite app_length. cbn [length].
      rewrite skipn_app. replace (length pre + 1 - size - length pre) with 0 by lia. cbn [skipn]. rewrite rev_app_distr. cbn [rev app].
      replace (length pre + 1 - size) with (S (length pre - size)) by lia. rewrite <- (skipn_tl_S (length pre - size) pre), rev_tl.
      destruct (rev (skipn (length pre - size) pre)) eqn:E; [|reflexivity].
      apply (f_equal (@length _)) in E. rewrite rev_length, skipn_length in E. cbn in E. lia.
    + rewrite app_length. cbn [length]. lia.
  - unfold with_buf. cbn [h_max h_buf h_cur h_cmds h_browse h_oldest]. f_equal.
    + unfold lastn. rewrite app_length. cbn [length]. replace (length pre - size) with 0 by lia. replace (length pre + 1 - size) with 0 by lia. cbn [skipn].
      rewrite rev_app_distr. reflexivity.
    + rewrite app_length. cbn [length]. lia.
Qed.
Lemma load_hist size saved : 1 <= size -> load_commands (history_init size) saved = hist_of size (newcomer size saved).
Proof. intros Hs. exact (load_hist_gen size saved Hs []). Qed.
Lemma newcomer_ok size saved : Forall fine saved -> uok size (newcomer size saved).
Proof.
  intros H. split; [cbn; unfold lastn; rewrite skipn_length; lia|]. split; [cbn; lia|]. cbn. apply Forall_lastn, H.
Qed.
Lemma commands_hist size u : get_commands (hist_of size u) = Some (lastn (u_typed u) (u_lines u)).
Proof.
  unfold get_commands, hist_of. cbn [h_browse h_buf h_cmds]. rewrite rev_length. f_equal.
  rewrite firstn_rev, rev_involutive. unfold lastn. f_equal. lia.
Qed.

(** ** Lines *)
Definition clike (size : nat) (c g : bool) (u : user) (w : world) : Prop :=
  w_root w = root_of c g /\ w_cur w = cid (u_place u) /\ w_hist w = hist_of size u.
(** What an exit leaves; [again]: not the first time. *)
Definition farewell (i : nat) : list event := (EvHook i KSesExit [] :: outs i [bye i]) ++ (EvHook i KCliExit [] :: outs i [fish]).
Definition leaves (again : bool) (i : nat) (evs : list event) : Prop :=
  if again then (forall j, i <> j -> for_user j evs = []) /\ (forall e, In e evs -> exit_hook e = true -> exists a, e = EvHook i KSesExit a) else evs = farewell i.
Definition told (again lf : bool) (i : nat) (evs : list event) (own all : str) : Prop :=
  if lf then leaves again i evs /\ own = bye i ++ fish /\ all = [] /\ for_all evs = [] else says_to i evs own all.
Definition lined (size : nat) (c g : bool) (u : user) (line : str) (w : world) (r : fres) : Prop :=
  exists rep, answers (whole_complex rc) pc (Nat.eqb (w_sid w) 0) size c g u line rep /\
  match rep with
  | Broken => r = FUB \/ exists w' evs, r = FOk w' /\ w_trace w' = w_trace w ++ evs /\ existsb overflows evs = true
  | Reply own all u' c' g' lf => uok size u' /\ exists evs, told (w_exit w) lf (w_sid w) evs own all /\ quiet_call c evs c' /\
      r = FOk (mkWorld (root_of c' g') (w_next w) (if lf && negb (w_exit w) then st_store (w_store w) (lastn (u_typed u') (u_lines u')) else w_store w)
        (w_sid w) (cid (u_place u')) (hist_of size u') (lf || w_exit w) (w_trace w ++ evs))
  end.
Lemma keeps_place size line u : u_place (keeps size line u) = u_place u.
Proof. unfold keeps. destruct (rev (u_lines u)); [reflexivity|]. destruct (list_eq_dec _ _ _); [reflexivity|]. destruct (Nat.ltb _ _); reflexivity. Qed.
Lemma hook_outs k args l w : e_hook E (w_sid w) k args (w_trace w ++ [EvHook (w_sid w) k args]) = mkURes (map OOut l) UReturn ->
  run_hook E k args w = HOk (made (w_root w) (w_cur w) (EvHook (w_sid w) k args :: outs (w_sid w) l) w).
Proof.
  intros H. unfold run_hook. change (w_sid (log (EvHook (w_sid w) k args) w)) with (w_sid w). change (w_trace (log (EvHook (w_sid w) k args) w)) with (w_trace w ++ [EvHook (w_sid w) k args]). rewrite H. cbn [ur_ops ur_end]. rewrite apply_outs.
  unfold made, log. cbn. rewrite <- app_assoc. reflexivity.
Qed.
Lemma to_hook i k a evs own all : k <> KSesExit -> says_to i evs own all -> says_to i (EvHook i k a :: evs) own all.
Proof. intros Hk (H1 & H2 & H3). split; [exact H1|]. split; [exact H2|]. cbn [existsb]. rewrite H3. destruct k; try reflexivity. contradiction. Qed.
Lemma says_app i a b own1 all1 own2 all2 : says_to i a own1 all1 -> says_to i b own2 all2 -> says_to i (a ++ b) (own1 ++ own2) (all1 ++ all2).
Proof.
  intros (A & B & G) (C & D & H). split; [|split; [|rewrite existsb_app, G, H; reflexivity]].
  - intros j. unfold for_user. rewrite flat_map_app. fold (for_user j a) (for_user j b). rewrite A, C. destruct (Nat.eqb i j); reflexivity.
  - unfold for_all. rewrite flat_map_app. fold (for_all a) (for_all b). rewrite B, D. reflexivity.
Qed.
Lemma quiet_app c a c1 b c2 : quiet_call c a c1 -> quiet_call c1 b c2 -> quiet_call c (a ++ b) c2.
Proof. intros (A & B) (C & D). split; [rewrite existsb_app, A, C; reflexivity|]. rewrite fold_left_app, B. exact D. Qed.
Lemma hook_quiet c i k a l : quiet_call c (EvHook i k a :: outs i l) c.
Proof. exact (quiet_outs c i l). Qed.

Lemma plain_line rec size c g u line w : 1 <= size -> clike size c g u w -> uok size u -> readable P line -> one_line line -> ~ recalls line -> exits_well w ->
  lined size c g u line w (feed_body E rec line w).
Proof.
  intros Hsize (Hroot & Hcur & Hhist) Hok Hread Hone Hrec Hwell. unfold feed_body.
  destruct (split line) as [ws|] eqn:Hs; [|destruct (split_safe line) as (? & H & _); congruence].
  pose proof (proj2 (words_split _ _) Hs) as Hw.
  destruct ws as [|t rest].
  { exists (Reply [] [] u c g false). split; [apply a_blank, Hw|]. split; [exact Hok|]. exists []. split; [apply to_nil|]. split; [split; reflexivity|].
    rewrite app_nil_r, <- Hroot, <- Hcur, <- Hhist. destruct w; reflexivity. }
  rewrite Hhist, new_keeps by exact Hsize. set (u1 := keeps size line u). set (w1 := set_hist (hist_of size u1) w).
  assert (Hok1 : uok size u1) by (apply keeps_ok; assumption).
  assert (Hws : Forall (readable P) (t :: rest)) by (apply (legible_words E line); [exact Hread|exact Hs]).
  assert (Hplace : u_place u1 = u_place u) by apply keeps_place.
  assert (Hnr : ~ is_recall (t :: rest)) by (intros H; apply Hrec; exists (t :: rest); split; [exact Hw|exact H]).
  assert (Hmenus : t :: rest <> [lit "help"] -> t :: rest <> [lit "exit"] -> t :: rest <> [lit "history"] ->
    scan E (builtin E rec) (t :: rest) [global_menu] w1 = EDone false w1 ->
    lined size c g u line w (match dispatch E (builtin E rec) (t :: rest) line w1 with
          | EDone _ w' => FOk w'
          | EExc (XBadCast what) w' | EExc (XStd what) w' => hres_fres (std_exception E line what w')
          | EExc XOther w' => FOk (out (lit "Cli. Unknown exception caught handling command line """ ++ line ++ lit """" ++ nl) w')
          | EUB => FUB
          | EFuel => FFuel
          end)).
  { intros H1 H2 H3 Hg. unfold dispatch. rewrite Hg. cbn [e_bind].
    change (w_cur w1) with (w_cur w). change (w_root w1) with (w_root w). rewrite Hroot, Hcur, clocated.
    destruct (place_scan no_builtin c g (t :: rest) ltac:(discriminate) Hws (u_place u) w1 Hroot) as [(e & He & Hp)|(Hno & ->)].
    - exists (replied line e u1 c g). split; [eapply a_effect; [exact Hw|exact He]|].
      destruct e as [text|text|what|p|on| |]; cbn [performed col_of gone_of own_of all_of] in Hp;
        [destruct Hp as (evs & Hq & Hsays & ->)..|destruct Hp as (rt & cur & evs & -> & Hov)]; cbn [e_bind replied].
      + split; [exact Hok1|]. exists evs. split; [exact Hsays|]. split; [exact Hq|]. unfold made. cbn. rewrite Hcur, Hplace. reflexivity.
      + split; [exact Hok1|]. exists evs. split; [exact Hsays|]. split; [exact Hq|]. unfold made. cbn. rewrite Hcur, Hplace. reflexivity.
      + split; [exact Hok1|]. unfold std_exception. cbn [e_has]. rewrite Hhas.
        rewrite (hook_outs KExcept [line; what] [lit "Exception caught in CLI handler: "; what; lit " while handling command: "; line; lit "." ++ nl]) by (cbn [e_hook]; rewrite Hhk by discriminate; reflexivity).
        cbn [hres_fres]. exists (evs ++ EvHook (w_sid w) KExcept [line; what] ::
          outs (w_sid w) [lit "Exception caught in CLI handler: "; what; lit " while handling command: "; line; lit "." ++ nl]).
        split; [|split; [|unfold made; cbn; rewrite Hcur, Hplace, <- app_assoc; reflexivity]].
        * apply (says_app _ _ _ [] [] _ []); [exact Hsays|]. apply to_hook; [discriminate|]. eapply to_eq; [apply to_outs|]. unfold caught. cbn [concat]. rewrite app_nil_r. reflexivity.
        * eapply quiet_app; [exact Hq|apply hook_quiet].
      + split; [exact Hok1|]. exists evs. split; [exact Hsays|]. split; [exact Hq|]. unfold made. reflexivity.
      + destruct on; (split; [exact Hok1|]; exists evs; split; [exact Hsays|]; split; [exact Hq|]; unfold made; cbn; rewrite Hcur, Hplace; reflexivity).
      + split; [exact Hok1|]. exists evs. split; [exact Hsays|]. split; [exact Hq|]. unfold made. cbn. rewrite Hcur, Hplace. reflexivity.
      + right. do 2 eexists. split; [reflexivity|]. split; [reflexivity|exact Hov].
    - cbn [e_bind]. unfold wrong_command. cbn [e_has]. rewrite Hhas.
      rewrite (hook_outs KWrong [line] [lit "Unknown command or incorrect parameters: "; line; lit "." ++ nl]) by (cbn [e_hook]; rewrite Hhk by discriminate; reflexivity). cbn iota.
      eexists. split; [apply (a_wrong _ _ _ _ _ _ _ _ (t :: rest)); try assumption; discriminate|]. fold u1. split; [exact Hok1|].
      exists (EvHook (w_sid w) KWrong [line] :: outs (w_sid w) [lit "Unknown command or incorrect parameters: "; line; lit "." ++ nl]).
      split; [|split; [|unfold made; cbn; rewrite Hroot, Hcur, Hplace; reflexivity]].
      + apply to_hook; [discriminate|]. eapply to_eq; [apply to_outs|]. cbn [concat]. rewrite app_nil_r. reflexivity.
      + apply hook_quiet. }
  pose proof (global_scan rec t rest w1) as Hg.
  destruct (str_eqb (lit "help") t) eqn:E1; [apply str_eqb_eq in E1; subst t; destruct rest as [|r rest]|].
  { unfold dispatch. rewrite Hg. cbn [run_fn builtin]. unfold help_text.
    change (w_cur w1) with (w_cur w). change (w_root w1) with (w_root w). rewrite Hroot, Hcur, clocated. cbn [e_bind].
    assert (Ht : lit "Commands available:" ++ nl ++ main_help [global_menu] ++ main_help (cctx c g (u_place u)) = global_help ++ menu_help c g (u_place u))
      by (destruct (u_place u), c, g; vm_compute; reflexivity).
    rewrite Ht. eexists. split; [apply a_help, Hw|]. fold u1. split; [exact Hok1|]. exists [EvOut (w_sid w) (global_help ++ menu_help c g (u_place u))].
    split; [eapply to_eq; [apply to_out, to_nil|apply app_nil_r]|]. split; [split; reflexivity|].
    unfold out, log. cbn [w_root w_next w_store w_sid w_cur w_hist w_exit w_trace w1 set_hist]. fold u1. rewrite Hroot, Hcur, Hplace. reflexivity. }
  { apply Hmenus; try discriminate. exact Hg. }
  destruct (str_eqb (lit "exit") t) eqn:E2; [apply str_eqb_eq in E2; subst t; destruct rest as [|r rest]|].
  { unfold dispatch. rewrite Hg. cbn [run_fn builtin]. unfold session_exit. cbn [e_has]. rewrite !Hhas.
    destruct Hwell as (what & Hwell). destruct (w_exit w) eqn:Hexit.
    { unfold run_hook at 1. cbn [e_hook]. change (w_sid (log (EvHook (w_sid w1) KSesExit []) w1)) with (w_sid w). change (w_trace (log (EvHook (w_sid w1) KSesExit []) w1)) with (w_trace w ++ [EvHook (w_sid w) KSesExit []]).
      rewrite Hwell. cbn [ur_ops ur_end apply_ops fold_left apply_op h_bind e_bind hres_fres]. unfold std_exception. cbn [e_has]. rewrite Hhas.
      rewrite (hook_outs KExcept [line; what] [lit "Exception caught in CLI handler: "; what; lit " while handling command: "; line; lit "." ++ nl]) by (cbn [e_hook]; rewrite Hhk by discriminate; reflexivity).
      cbn [hres_fres]. eexists. split; [apply a_exit, Hw|]. fold u1. split; [exact Hok1|].
      exists (EvHook (w_sid w) KSesExit [] :: outs (w_sid w) [bye (w_sid w)] ++ EvHook (w_sid w) KExcept [line; what] ::
        outs (w_sid w) [lit "Exception caught in CLI handler: "; what; lit " while handling command: "; line; lit "." ++ nl]).
      split; [|split].
      - rewrite Hexit. split; [|split; [reflexivity|split; reflexivity]]. split.
        + intros j Hj. cbn [outs app for_user flat_map]. replace (Nat.eqb (w_sid w) j) with false by (symmetry; apply Nat.eqb_neq; exact Hj). reflexivity.
        + intros e He Hx. cbn [outs app In] in He. repeat destruct He as [<-|He]; try discriminate Hx; [exists []; reflexivity|contradiction].
      - split; reflexivity.
      - rewrite Hexit. unfold made. cbn. rewrite Hroot, Hcur, Hplace, Hexit, <- !app_assoc. reflexivity. }
    rewrite (hook_outs KSesExit [] [bye (w_sid w)]) by exact Hwell. cbn [h_bind].
    rewrite (hook_outs KCliExit [] [fish]) by (cbn [e_hook]; rewrite Hhk by discriminate; reflexivity). cbn [h_bind]. unfold made at 1. cbn [w_hist w1 set_hist made]. rewrite commands_hist. cbn [e_bind].
    eexists. split; [apply a_exit, Hw|]. fold u1. split; [exact Hok1|].
    exists (farewell (w_sid w)). split; [|split].
    - rewrite Hexit. split; [reflexivity|]. split; [reflexivity|]. split; reflexivity.
    - eapply quiet_app; apply hook_quiet.
    - rewrite Hexit. unfold made, set_exit, set_store. cbn. rewrite Hroot, Hcur, Hplace, <- !app_assoc. reflexivity. }
  { apply Hmenus; try discriminate. exact Hg. }
  destruct (str_eqb (lit "history") t) eqn:E3; [apply str_eqb_eq in E3; subst t; destruct rest as [|r rest]|].
  { unfold dispatch. rewrite Hg. cbn [run_fn builtin]. change (w_hist w1) with (hist_of size u1).
    rewrite show_spec by apply Hok1. rewrite view_hist. cbn [e_bind]. eexists. split; [apply a_history, Hw|]. fold u1. split; [exact Hok1|].
    exists [EvOut (w_sid w) (listing (remembered u1))]. split; [eapply to_eq; [apply to_out, to_nil|apply app_nil_r]|]. split; [split; reflexivity|].
    unfold out, log. cbn [w_root w_next w_store w_sid w_cur w_hist w_exit w_trace w1 set_hist]. rewrite Hroot, Hcur, Hplace. reflexivity. }
  { apply Hmenus; try discriminate. exact Hg. }
  assert (Hneq : forall a, str_eqb a t = false -> t <> a) by (intros a H ->; rewrite str_eqb_refl in H; discriminate).
  assert (Hrest : scan E (builtin E rec) (t :: rest) [global_menu] w1 = EDone false w1).
  { destruct (str_eqb (lit "!") t) eqn:E4; [apply str_eqb_eq in E4; subst t|exact Hg].
    destruct rest as [|x [|x' rest]]; [exact Hg| |exact Hg].
    inversion Hws as [|? ? _ Hws']; subst. inversion Hws' as [|? ? Hx _]; subst.
    destruct (int_types P UInt x Hx (or_introl Hstrict)) as (Hi & Hub).
    destruct (int_from_string P UInt x) as [v| |] eqn:Hc; [|exact Hg|congruence].
    exfalso. apply Hnr. exists x, v. split; [reflexivity|]. apply Hi. reflexivity. }
  apply Hmenus; [intros H; apply (f_equal (hd [])) in H; cbn [hd] in H; revert H; apply Hneq; assumption..|exact Hrest].
Qed.

(** Recalls of recalls: [nests size n line u]: [line] leads to [n] lines recalled one by another. *)
Definition nest (size : nat) (line : str) (u : user) (l : str) (u2 : user) : Prop :=
  u2 = forgets size line u /\ exists s v, words line [lit "!"; s] /\ int_text UInt s v /\ In (v, l) (remembered u2).
Inductive nests (size : nat) : nat -> str -> user -> Prop :=
| n_zero line u : nests size 0 line u
| n_more n line u l u2 : nest size line u l u2 -> nests size n l u2 -> nests size (S n) line u.
Definition fed (size n : nat) (c g : bool) (u : user) (line : str) (w : world) (r : fres) : Prop :=
  (r = FFuel /\ nests size n line u) \/ lined size c g u line w r.
Lemma recall_line rec n size c g u line w : 1 <= size -> clike size c g u w -> uok size u -> readable P line -> recalls line -> exits_well w ->
  (forall u2 l w2, clike size c g u2 w2 -> uok size u2 -> readable P l -> one_line l -> exits_well w2 -> fed size n c g u2 l w2 (rec l w2)) ->
  fed size (S n) c g u line w (feed_body E rec line w).
Proof.
  intros Hsize (Hroot & Hcur & Hhist) Hok Hread (ws & Hw & Hrec) Hwell Hind. unfold feed_body.
  rewrite (proj1 (words_split _ _) Hw). destruct Hrec as (x & v & -> & Hv).
  rewrite Hhist, new_keeps by exact Hsize. set (u1 := keeps size line u). set (w1 := set_hist (hist_of size u1) w).
  assert (Hws : Forall (readable P) [lit "!"; x]) by (apply (legible_words E line); [exact Hread|apply words_split, Hw]).
  inversion Hws as [|? ? _ Hws']; subst. inversion Hws' as [|? ? Hx _]; subst.
  destruct (int_types P UInt x Hx (or_introl Hstrict)) as (Hi & _). pose proof (proj2 (Hi v) Hv) as Hc.
  pose proof (forgets_ok size line u Hsize Hok) as Hok2. set (u2 := forgets size line u) in *.
  assert (Hplace : u_place u2 = u_place u) by (apply (keeps_place size line u)).
  assert (Hv0 : (0 <= v < 2 ^ 64)%Z) by (destruct Hv as (_ & Hv); cbn in Hv; lia).
  unfold dispatch. rewrite (global_scan rec (lit "!") [x] w1). cbn [str_eqb]. change (str_eqb (lit "help") (lit "!")) with false.
  change (str_eqb (lit "exit") (lit "!")) with false. change (str_eqb (lit "history") (lit "!")) with false. rewrite str_eqb_refl. cbn iota. rewrite Hc.
  cbn [run_fn builtin]. change (w_hist w1) with (hist_of size u1). unfold u1. rewrite forget_keeps. fold u2.
  change (set_hist (hist_of size u2) w1) with (set_hist (hist_of size u2) w). set (w2 := set_hist (hist_of size u2) w).
  assert (Hl2 : clike size c g u2 w2) by (split; [exact Hroot|split; [change (w_cur w2) with (w_cur w); rewrite Hplace; exact Hcur|reflexivity]]).
  assert (Hcases : (u_lines u2 = [] /\ u_first u2 = 0%Z) \/ ~ (u_lines u2 = [] /\ u_first u2 = 0%Z)).
  { destruct (u_lines u2); [|right; intros (? & _); discriminate]. destruct (Z.eq_dec (u_first u2) 0); [left; auto|right; intros (_ & ?); contradiction]. }
  destruct Hcases as [Hz|Hnz].
  { right. pose proof Hz as (Z1 & Z2). rewrite at_id_ub; [|exact Hv0|exact Z2|unfold hist_of; cbn [h_buf]; rewrite Z1; reflexivity].
    exists Broken. split; [apply (a_recall_first _ _ _ _ _ _ _ _ [lit "!"; x]); [exact Hw|exists x, v; auto|apply Hz|apply Hz]|]. left. reflexivity. }
  assert (Hin : (exists l, In (v, l) (remembered u2)) \/ forall l, ~ In (v, l) (remembered u2)).
  { unfold remembered. destruct (Z_le_dec (u_first u2) v); [|right; intros l H; apply number_in in H; lia].
    destruct (nth_error (u_lines u2) (Z.to_nat (v - u_first u2))) as [l'|] eqn:En.
    - left. exists l'. apply number_in. auto.
    - right. intros l' H. apply number_in in H as (_ & H). congruence. }
  destruct Hin as [(l & Hin)|Hno].
  - rewrite (at_id_found _ _ l); [|apply Hok2|rewrite view_hist; exact Hin].
    assert (Hfine : fine l).
    { destruct Hok2 as (_ & _ & Hf). rewrite Forall_forall in Hf. apply Hf. unfold remembered in Hin. apply number_in in Hin as (_ & Hin). eapply nth_error_In, Hin. }
    destruct Hfine as (G1 & G2).
    destruct (Hind u2 l w2 Hl2 Hok2 G1 G2 Hwell) as [(-> & Hn)|(rep & Hans & Hrep)].
    { left. split; [reflexivity|]. apply (n_more size n line u l u2); [|exact Hn]. split; [reflexivity|]. exists x, v. auto. }
    right. exists rep. split; [eapply a_recall; [exact Hw|exact Hv|exact Hin|exact Hans]|].
    destruct rep as [own all u' c' g' lf|].
    + destruct Hrep as (A & evs & B & D & ->). split; [exact A|]. exists evs. split; [exact B|]. split; [exact D|]. reflexivity.
    + destruct Hrep as [->|(w' & evs & -> & A & B)]; [left; reflexivity|]. right. exists w', evs. split; [reflexivity|]. auto.
  - right. rewrite at_id_missing; [|apply Hv0|apply Hok2| |rewrite view_hist; exact Hno].
    2: { unfold next_id, hist_of. cbn [h_oldest h_buf]. rewrite rev_length. destruct Hok2 as (_ & Hf & _).
         destruct (u_lines u2) as [|y l] eqn:El; [|cbn [length]; lia]. destruct (Z.eq_dec (u_first u2) 0); [|cbn [length]; lia]. exfalso. apply Hnz. auto. }
    cbn [out_of_range e_bind]. unfold std_exception. cbn [e_has]. rewrite Hhas.
    rewrite (hook_outs KExcept [line; lit "Index not found in history"]
      [lit "Exception caught in CLI handler: "; lit "Index not found in history"; lit " while handling command: "; line; lit "." ++ nl]) by (cbn [e_hook]; rewrite Hhk by discriminate; reflexivity).
    cbn [hres_fres]. eexists. split; [eapply a_recall_none; [exact Hw|exact Hv|exact Hnz|exact Hno]|]. fold u2. split; [exact Hok2|].
    exists (EvHook (w_sid w) KExcept [line; lit "Index not found in history"] ::
      outs (w_sid w) [lit "Exception caught in CLI handler: "; lit "Index not found in history"; lit " while handling command: "; line; lit "." ++ nl]).
    split; [|split; [apply hook_quiet|]].
    + apply to_hook; [discriminate|]. eapply to_eq; [apply to_outs|]. unfold caught. cbn [concat]. rewrite app_nil_r. reflexivity.
    + unfold made. cbn [w_root w_next w_store w_sid w_cur w_hist w_exit w_trace w2 set_hist]. rewrite Hroot, Hcur, Hplace. reflexivity.
Qed.

(** ** Endless recalls *)
Definition same (u u' : user) : Prop := u_lines u = u_lines u' /\ u_first u = u_first u'.
Lemma forgets_same size line u u' : same u u' -> same (forgets size line u) (forgets size line u').
Proof.
  intros (A & B). unfold same, forgets, keeps. rewrite <- A. destruct (rev (u_lines u)); [cbn; auto|].
  destruct (list_eq_dec _ _ _); [cbn; auto|]. destruct (Nat.ltb _ _); cbn; split; congruence.
Qed.
Lemma remembered_same u u' : same u u' -> remembered u = remembered u'.
Proof. intros (A & B). unfold remembered. rewrite A, B. reflexivity. Qed.
Lemma nest_same size line u l u2 u' : nest size line u l u2 -> same u u' -> exists u2', nest size line u' l u2' /\ same u2 u2'.
Proof.
  intros (-> & s & v & Hw & Hv & Hin) Hs. exists (forgets size line u'). pose proof (forgets_same size line u u' Hs) as H2. split; [|exact H2].
  split; [reflexivity|]. exists s, v. rewrite <- (remembered_same _ _ H2). auto.
Qed.
Lemma nests_same size n : forall line u u', nests size n line u -> same u u' -> nests size n line u'.
Proof.
  induction n as [|n IH]; intros line u u' H Hs; [constructor|]. inversion H as [|? ? ? l u2 Hn Hr]; subst.
  destruct (nest_same _ _ _ _ _ _ Hn Hs) as (u2' & Hn' & Hs'). eapply n_more; [exact Hn'|]. eapply IH; eassumption.
Qed.
Lemma nests_le size n : forall line u, nests size n line u -> forall k, k <= n -> nests size k line u.
Proof.
  induction n as [|n IH]; intros line u H k Hk; [replace k with 0 by lia; constructor|]. destruct k as [|k]; [constructor|].
  inversion H; subst. eapply n_more; [eassumption|]. eapply IH; [eassumption|lia].
Qed.
(** A recall leaves the lines as they are, or there is one less. *)
Lemma forgets_len size line u : 1 <= size -> length (u_lines (forgets size line u)) <= length (u_lines u) /\
  (length (u_lines (forgets size line u)) = length (u_lines u) -> same (forgets size line u) u).
Proof.
  intros Hs. unfold forgets, keeps, same. destruct (rev (u_lines u)) as [|last r] eqn:E.
  - assert (u_lines u = []) as -> by (rewrite <- (rev_involutive (u_lines u)), E; reflexivity). cbn. auto.
  - assert (Hl : 1 <= length (u_lines u)) by (rewrite <- (rev_length (u_lines u)), E; cbn; lia).
    destruct (list_eq_dec ascii_dec last line); [cbn [u_lines u_first]; rewrite removelast_len; split; lia|].
    destruct (Nat.ltb_spec size (S (length (u_lines u)))); cbn [u_lines u_first]; rewrite removelast_last; [|auto]. rewrite tl_len. split; lia.
Qed.
Lemma nest_len size line u l u2 : 1 <= size -> nest size line u l u2 -> length (u_lines u2) <= length (u_lines u) /\
  (length (u_lines u2) = length (u_lines u) -> same u2 u) /\ In l (u_lines u2).
Proof.
  intros Hs (-> & s & v & _ & _ & Hin). destruct (forgets_len size line u Hs) as (A & B). split; [exact A|]. split; [exact B|].
  unfold remembered in Hin. apply number_in in Hin as (_ & Hin). eapply nth_error_In, Hin.
Qed.
(** The lines a recall leads to *)
Inductive trail (size : nat) : str -> user -> list str -> user -> Prop :=
| t_nil line u : trail size line u [] u
| t_cons line u l u2 ls u' : nest size line u l u2 -> trail size l u2 ls u' -> trail size line u (l :: ls) u'.
Lemma last_cons {A} (l : list A) : forall a d, last (a :: l) d = last l a.
Proof. induction l as [|b l IH]; intros a d; [reflexivity|]. change (last (a :: b :: l) d) with (last (b :: l) d). rewrite !IH. reflexivity. Qed.
Lemma nests_trail size a : forall b line u, nests size (a + b) line u -> exists ls u', trail size line u ls u' /\ length ls = a /\ nests size b (last ls line) u'.
Proof.
  induction a as [|a IH]; intros b line u H; [exists [], u; split; [constructor|auto]|]. cbn [Nat.add] in H. inversion H as [|? ? ? l u2 Hn Hr]; subst.
  destruct (IH b l u2 Hr) as (ls & u' & T & L & N). exists (l :: ls), u'. split; [eapply t_cons; eassumption|]. split; [cbn; lia|]. rewrite last_cons. exact N.
Qed.
Lemma trail_nests size line u ls u' : trail size line u ls u' -> forall b, nests size b (last ls line) u' -> nests size (length ls + b) line u.
Proof.
  intros H. induction H as [|line u l u2 ls u' Hn Ht IH]; intros b Hb; [exact Hb|]. rewrite last_cons in Hb. cbn [length Nat.add]. eapply n_more; [exact Hn|]. apply IH, Hb.
Qed.
Lemma trail_split size ls1 : forall ls2 line u u', trail size line u (ls1 ++ ls2) u' -> exists u1, trail size line u ls1 u1 /\ trail size (last ls1 line) u1 ls2 u'.
Proof.
  induction ls1 as [|l ls1 IH]; intros ls2 line u u' H; [exists u; split; [constructor|exact H]|]. cbn [app] in H. inversion H as [|? ? ? u2 ? ? Hn Ht]; subst.
  destruct (IH _ _ _ _ Ht) as (u1 & A & B). exists u1. rewrite last_cons. split; [eapply t_cons; eassumption|exact B].
Qed.
Lemma trail_len size line u ls u' : 1 <= size -> trail size line u ls u' -> length (u_lines u') <= length (u_lines u) /\
  (length (u_lines u') = length (u_lines u) -> same u' u /\ incl ls (u_lines u)).
Proof.
  intros Hs H. induction H as [|line u l u2 ls u' Hn Ht (IH1 & IH2)]; [split; [lia|]; intros _; split; [split; reflexivity|intros x []]|].
  destruct (nest_len _ _ _ _ _ Hs Hn) as (A & B & C). split; [lia|]. intros He. destruct (IH2 ltac:(lia)) as ((S1 & S2) & I). destruct (B ltac:(lia)) as (S3 & S4).
  split; [split; congruence|]. rewrite <- S3. intros x [<-|Hx]; [exact C|apply I, Hx].
Qed.
Lemma cycle size l u ls u' : trail size l u ls u' -> ls <> [] -> last ls l = l -> same u' u -> forall n, nests size n l u.
Proof.
  intros Ht Hne Hl Hs n. induction n as [n IH] using (well_founded_induction lt_wf).
  pose proof (trail_nests _ _ _ _ _ Ht) as Hb. rewrite Hl in Hb. destruct ls as [|x ls]; [contradiction|]. cbn [length] in Hb.
  destruct n as [|n]; [constructor|]. destruct (le_lt_dec (S (length ls)) (S n)) as [Hle|Hlt].
  - replace (S n) with (S (length ls) + (n - length ls)) by lia. apply Hb. destruct Hs as (S1 & S2). eapply nests_same; [apply IH; lia|split; congruence].
  - eapply nests_le; [apply (Hb 0); constructor|lia].
Qed.
Lemma twice (l : list str) : ~ NoDup l -> exists a l1 l2 l3, l = l1 ++ a :: l2 ++ a :: l3.
Proof.
  induction l as [|x l IH]; intros H; [exfalso; apply H; constructor|].
  destruct (in_dec (list_eq_dec ascii_dec) x l) as [Hin|Hout].
  - apply in_split in Hin as (l2 & l3 & ->). exists x, [], l2, l3. reflexivity.
  - destruct IH as (a & l1 & l2 & l3 & ->); [intros Hd; apply H; constructor; assumption|]. exists a, (x :: l1), l2, l3. reflexivity.
Qed.
Fixpoint room_for (m : nat) : nat := match m with 0 => 1 | S m => S (S m) + room_for m end.
Lemma room_enough m : room_for m <= (m + 2) * (m + 2).
Proof. induction m as [|m IH]; cbn [room_for]; [lia|]. nia. Qed.
Lemma nests_ever size : 1 <= size -> forall m line u, length (u_lines u) <= m -> nests size (room_for m) line u -> forall n, nests size n line u.
Proof.
  intros Hs. induction m as [|m IH]; intros line u Hm H n.
  - exfalso. cbn in H. inversion H as [|? ? ? l u2 Hn _]; subst. destruct (nest_len _ _ _ _ _ Hs Hn) as (A & _ & B).
    destruct (u_lines u2); [exact B|]. cbn in A. lia.
  - cbn [room_for] in H. destruct (nests_trail _ _ _ _ _ H) as (ls & u' & Ht & Hlen & Hr).
    destruct (trail_len _ _ _ _ _ Hs Ht) as (A & B).
    assert (Hthen : (forall k, nests size k (last ls line) u') -> nests size n line u).
    { intros Hk. eapply nests_le; [eapply trail_nests; [exact Ht|apply (Hk n)]|lia]. }
    destruct (Nat.eq_dec (length (u_lines u')) (length (u_lines u))) as [He|Hne].
    + destruct (B He) as (Hsame & Hincl).
      assert (Hdup : ~ NoDup ls) by (intros Hd; pose proof (NoDup_incl_length Hd Hincl); lia).
      apply twice in Hdup as (a & l1 & l2 & l3 & ->).
      replace (l1 ++ a :: l2 ++ a :: l3) with ((l1 ++ [a]) ++ (l2 ++ [a]) ++ l3) in * by (rewrite <- !app_assoc; reflexivity).
      destruct (trail_split _ _ _ _ _ _ Ht) as (ua & T1 & T2). destruct (trail_split _ _ _ _ _ _ T2) as (ub & T3 & T4). rewrite last_last in T3.
      destruct (trail_len _ _ _ _ _ Hs T1) as (L1 & M1). destruct (trail_len _ _ _ _ _ Hs T3) as (L2 & M2). destruct (trail_len _ _ _ _ _ Hs T4) as (L3 & M3).
      assert (Hc : forall k, nests size k a ua).
      { apply (cycle size a ua (l2 ++ [a]) ub T3); [destruct l2; discriminate|apply last_last|apply M2; lia]. }
      eapply nests_le; [eapply trail_nests; [exact T1|rewrite last_last; apply (Hc n)]|lia].
    + apply Hthen. intros k. apply IH; [lia|exact Hr].
Qed.
(** ** The program *)
Lemma recalls_dec line : readable P line -> recalls line \/ ~ recalls line.
Proof.
  intros Hread. destruct (split line) as [ws|] eqn:Hs; [|destruct (split_safe line) as (? & H & _); congruence].
  pose proof (proj2 (words_split _ _) Hs) as Hw.
  assert (Hno : ~ is_recall ws -> ~ recalls line) by (intros H (ws' & Hw' & Hr); rewrite (words_unique _ _ _ Hw' Hw) in Hr; auto).
  destruct ws as [|t [|x [|y rest]]]; try (right; apply Hno; intros (? & ? & H & _); discriminate).
  destruct (list_eq_dec ascii_dec t (lit "!")) as [->|Hne]; [|right; apply Hno; intros (? & ? & H & _); injection H as -> _; apply Hne; reflexivity].
  assert (Hws : Forall (readable P) [lit "!"; x]) by (apply (legible_words E line); [exact Hread|exact Hs]).
  inversion Hws as [|? ? _ Hws']; subst. inversion Hws' as [|? ? Hx _]; subst.
  destruct (int_types P UInt x Hx (or_introl Hstrict)) as (Hi & Hub).
  destruct (int_from_string P UInt x) as [v| |] eqn:Hc; [| |congruence].
  - left. exists [lit "!"; x]. split; [exact Hw|]. exists x, v. split; [reflexivity|]. apply Hi. reflexivity.
  - right. apply Hno. intros (x' & v & Hx' & Hv). apply (f_equal (@tl _)) in Hx'. injection Hx' as <-. apply Hi in Hv. discriminate.
Qed.
Lemma nests_endless size c g lc line u : 1 <= size -> length (u_lines u) <= size -> nests size (room_for size) line u ->
  forall r, ~ answers (whole_complex rc) pc lc size c g u line r.
Proof.
  intros Hs Hl Hn. pose proof (nests_ever size Hs size line u Hl Hn) as Hall. clear Hl Hn. intros r H.
  assert (Hend : exists n, ~ nests size n line u); [|destruct Hend as (n & Hend); exact (Hend (Hall n))]. clear Hall.
  assert (Hone : forall u0 line0 n, nests size (S n) line0 u0 -> exists s v l, words line0 [lit "!"; s] /\ int_text UInt s v /\ In (v, l) (remembered (forgets size line0 u0)) /\
    nests size n l (forgets size line0 u0)).
  { intros u0 line0 n Hn. inversion Hn as [|? ? ? l u2 (-> & s & v & A & B & D) N]; subst. exists s, v, l. auto. }
  assert (Hrec : forall s v, int_text UInt s v -> is_recall [lit "!"; s]) by (intros s v Hv; exists s, v; auto).
  induction H as [u line Hw|u line Hw|u line Hw|u line Hw|u line ws Hw Hr Hl Hf|u line s v Hw Hv Hn Hno|u line s v l r Hw Hv Hin Ha IH|u line ws e Hw He|u line ws Hw N0 N1 N2 N3 N4 Hno].
  7: { destruct IH as (n & IH). exists (S n). intros Hn. apply Hone in Hn as (s' & v' & l' & A & B & D & N).
       pose proof (words_unique _ _ _ A Hw) as E. injection E as ->. rewrite (int_text_unique _ _ _ _ B Hv) in D. rewrite (remembered_unique _ _ _ _ D Hin) in N. exact (IH N). }
  all: exists 1; intros X; apply Hone in X as (s' & v' & l' & A & B & D & _); pose proof (words_unique _ _ _ A Hw) as E; try discriminate E.
  - unfold remembered in D. rewrite Hl in D. destruct D.
  - injection E as ->. rewrite (int_text_unique _ _ _ _ B Hv) in D. exact (Hno _ D).
  - subst ws. apply effects_global in He as (_ & _ & _ & _ & He). apply He. eapply Hrec, B.
  - subst ws. apply N4. eapply Hrec, B.
Qed.
Lemma line_fed fuel size c g : 1 <= size -> forall u line w, clike size c g u w -> uok size u -> readable P line -> one_line line -> exits_well w ->
  fed size fuel c g u line w (feed E fuel line w).
Proof.
  intros H1. induction fuel as [|fuel IH]; intros u line w H2 H3 H4 H5 H6; [left; split; [reflexivity|constructor]|].
  change (feed E (S fuel) line w) with (feed_body E (feed E fuel) line w).
  destruct (recalls_dec line H4); [apply recall_line; assumption|right; apply plain_line; assumption].
Qed.
Lemma any_line fuel size c g u line w : deep <= fuel -> 1 <= size <= 200 -> clike size c g u w -> uok size u -> readable P line -> one_line line -> exits_well w ->
  (feed E fuel line w = FFuel /\ forall r, ~ answers (whole_complex rc) pc (Nat.eqb (w_sid w) 0) size c g u line r) \/
  lined size c g u line w (feed E fuel line w).
Proof.
  intros H0 (H1 & H1') H2 H3 H4 H5 H6. destruct (line_fed fuel size c g H1 u line w H2 H3 H4 H5 H6) as [(A & B)|A]; [left|right; exact A].
  split; [exact A|]. eapply nests_endless; [exact H1|apply H3|]. eapply nests_le; [exact B|].
  unfold deep in H0. pose proof (room_enough size). assert ((size + 2) * (size + 2) <= 202 * 202) by (apply Nat.mul_le_mono; lia). lia.
Qed.
End Complete.

Section Program.
Context (P : platform) (rc : str -> option (Z * str)) (pc : Z -> str).
Hypothesis Hstrict : strict P = false.
Notation E := (cx_env P rc pc).
Notation fine := (fun l => readable P l /\ one_line l).
Notation uok := (uok P).

Definition slike (size : nat) (u : option user) (s : option sess) : Prop :=
  match u, s with
  | None, None => True
  | Some u, Some s => n_cur s = cid (u_place u) /\ n_hist s = hist_of size u /\ uok size u
  | _, _ => False
  end.
Definition hlike (h : house) (a : prog) : Prop :=
  a_root a = root_of (o_colour h) (o_gone h) /\ (exists f, a_store a = StFile 1000 f /\ f_commands f = o_saved h) /\ Forall fine (o_saved h) /\
  cx_color (a_trace a) = o_colour h /\ (forall i, slike (room (Nat.eqb i 0)) (o_users h i) (a_ses a i)) /\
  a_count a = o_count h /\ a_stopped a = o_closed h.
Definition typed_ok (x : happening) : Prop := match x with Types _ line => readable P line /\ one_line line | _ => True end.
Lemma room_pos b : 1 <= room b.
Proof. destruct b; cbn; lia. Qed.
Lemma room_size b : 1 <= room b <= 200.
Proof. destruct b; cbn; lia. Qed.
Lemma skip_app {A} (a b : list A) : skipn (length a) (a ++ b) = b.
Proof. rewrite skipn_app, skipn_all, Nat.sub_diag. reflexivity. Qed.
Lemma color_app a b c : cx_color a = c -> cx_color (a ++ b) = fold_left paint b c.
Proof. intros <-. unfold cx_color. rewrite fold_left_app. reflexivity. Qed.
Lemma put_slike i u s us ss : (forall j, slike (room (Nat.eqb j 0)) (us j) (ss j)) -> slike (room (Nat.eqb i 0)) u s ->
  forall j, slike (room (Nat.eqb j 0)) (place_user i u us j) (put_ses i s ss j).
Proof. intros H1 H2 j. unfold place_user, put_ses. destruct (Nat.eqb_spec j i) as [->|]; [exact H2|apply H1]. Qed.

Notation ended e := (match e with Endless => AFuel | _ => AUB end).
Definition stepped (h : house) (x : happening) (a : prog) (r : ares) : Prop :=
  exists own all res, happens (whole_complex rc) pc h x own all res /\
  match res with
  | inl h' => exists a' evs, r = AOk a' /\ hlike h' a' /\ a_trace a' = a_trace a ++ evs /\ delivers x evs (own, all)
  | inr e => own = [] /\ all = [] /\ r = ended e
  end.
Lemma delivers_nil x : delivers x [] ([], []).
Proof. split; [|reflexivity]. intros j. destruct x; try reflexivity. cbn. destruct (Nat.eqb _ _); reflexivity. Qed.
Lemma step_house fuel h x a : deep <= fuel -> hlike h a -> typed_ok x -> stepped h x a (app_step P rc pc fuel (act_of x) a).
Proof.
  intros Hdeep Hl Hx. pose proof Hl as (Hroot & (f & Hf & Hsaved) & Hfine & Hcol & Hses & Hcount & Hstop).
  unfold app_step. rewrite Hstop. destruct (o_closed h) eqn:Hclosed.
  { exists [], [], (inl h). split; [apply h_closed, Hclosed|]. exists a, []. split; [reflexivity|]. split; [exact Hl|]. rewrite app_nil_r. split; [reflexivity|apply delivers_nil]. }
  destruct x as [|i line|i]; cbn [act_of].
  - rewrite Hcount, Hroot. exists [], []. eexists. split; [apply h_comes, Hclosed|]. cbn iota.
    unfold session_enter. cbn [e_has cx_env h_bind]. unfold open_session. cbn [w_root w_next w_store w_trace w_cur w_hist].
    do 2 eexists. split; [reflexivity|]. cbn [a_trace]. split; [|split; [symmetry; apply app_nil_r|apply delivers_nil]].
    split; [reflexivity|]. split; [exists f; auto|]. split; [exact Hfine|]. split; [exact Hcol|]. split; [|split; reflexivity].
    cbn [o_users a_ses]. apply put_slike; [exact Hses|]. cbn [slike n_cur n_hist]. split; [reflexivity|].
    split; [|apply newcomer_ok, Hfine]. rewrite Hf. cbn [st_commands]. rewrite Hsaved.
    change (size_of (o_count h)) with (room (Nat.eqb (o_count h) 0)). apply load_hist, room_pos.
  - pose proof (Hses i) as Hi. destruct (o_users h i) as [u|] eqn:Hu; destruct (a_ses a i) as [s|] eqn:Hs; cbn [slike] in Hi; try contradiction.
    2: { exists [], [], (inl h). split; [apply h_nobody; assumption|]. exists a, []. split; [reflexivity|]. split; [exact Hl|]. rewrite app_nil_r. split; [reflexivity|apply delivers_nil]. }
    destruct Hi as (Hcur & Hhist & Hok). destruct Hx as (Hx1 & Hx2).
    destruct (any_line P rc pc Hstrict (@cx_hook) (fun k => match k with KCliEnter | KSesEnter => false | _ => true end) ltac:(reflexivity) ltac:(reflexivity) fuel (room (Nat.eqb i 0)) (o_colour h) (o_gone h) u line (world_of a i s) Hdeep (room_size _)) as [(Hf1 & Hans)|(rep & Hans & Hrep)]; try assumption.
    { split; [exact Hroot|]. split; [exact Hcur|exact Hhist]. }
    { exists []. cbn [cx_hook world_of w_sid w_exit map]. unfold bye. destruct (Nat.eqb i 0); reflexivity. }
    { match type of Hf1 with context [feed ?E' _ _ _] => change E' with (cx_env P rc pc) in Hf1 end. rewrite Hf1.
      exists [], [], (inr Endless). split; [eapply h_endless; eassumption|]. repeat split; reflexivity. }
    match type of Hrep with context [feed ?E' _ _ _] => change E' with (cx_env P rc pc) in Hrep end.
    change (w_sid (world_of a i s)) with i in *. change (w_trace (world_of a i s)) with (a_trace a) in *.
    change (w_next (world_of a i s)) with (a_next a) in *. change (w_store (world_of a i s)) with (a_store a) in *.
    destruct rep as [own all u' c' g' lf|].
    + destruct Hrep as (Hok' & evs & Hsays & (Hq1 & Hq2) & ->). cbn [w_trace]. rewrite skip_app, Hq1.
      assert (Hheard : delivers (Types i line) evs (own, all)).
      { clear -Hsays. change (w_exit (world_of a i s)) with false in Hsays. destruct lf; [|split; apply Hsays].
        destruct Hsays as (Hev & -> & -> & Ha). cbn in Hev. subst evs. split; [|exact Ha]. intros j. cbn [fst]. cbn [farewell outs app for_user flat_map]. destruct (Nat.eqb i j); [|reflexivity].
        rewrite !app_nil_r. reflexivity. }
      change (w_exit (world_of a i s)) with false. destruct lf; cbn [andb orb negb].
      * exists own, all. eexists. split; [eapply h_exits; eassumption|]. cbn iota. unfold after.
        cbn [w_root w_next w_store w_trace w_sid w_exit w_cur w_hist]. do 2 eexists. split; [reflexivity|]. cbn [a_trace].
        split; [|split; [reflexivity|exact Hheard]].
        split; [reflexivity|]. split; [|split; [|split; [|split; [|split]]]]; cbn [o_saved o_colour o_users o_count o_closed a_store a_trace a_ses a_count a_stopped].
        -- rewrite Hf. cbn [st_store]. eexists. split; [reflexivity|]. unfold f_store. cbn [f_commands]. rewrite append_trim_lastn, Hsaved.
           apply getlines_put. apply Forall_lastn, Forall_app. split; [|apply Forall_lastn].
           ++ rewrite <- Hsaved. apply f_commands_one_line.
           ++ destruct Hok' as (_ & _ & Hok'). eapply Forall_impl; [|exact Hok']. intros l Hl'. apply Hl'.
        -- apply Forall_lastn, Forall_app. split; [exact Hfine|]. apply Forall_lastn. apply Hok'.
        -- rewrite (color_app _ _ _ Hcol). exact Hq2.
        -- apply put_slike; [exact Hses|]. exact Logic.I.
        -- exact Hcount.
        -- rewrite Hstop. reflexivity.
      * exists own, all. eexists. split; [eapply h_types; eassumption|]. cbn iota. unfold after.
        cbn [w_root w_next w_store w_trace w_sid w_exit w_cur w_hist]. do 2 eexists. split; [reflexivity|]. cbn [a_trace].
        split; [|split; [reflexivity|exact Hheard]].
        split; [reflexivity|]. split; [|split; [|split; [|split; [|split]]]]; cbn [o_saved o_colour o_users o_count o_closed a_store a_trace a_ses a_count a_stopped].
        -- exists f. auto.
        -- exact Hfine.
        -- rewrite (color_app _ _ _ Hcol). exact Hq2.
        -- apply put_slike; [exact Hses|]. split; [reflexivity|]. split; [reflexivity|exact Hok'].
        -- exact Hcount.
        -- rewrite Hstop. reflexivity.
    + exists [], [], (inr Undef). split; [eapply h_broken; eassumption|]. split; [reflexivity|]. split; [reflexivity|].
      destruct Hrep as [->|(w' & evs & -> & Ht & Hov)]; [reflexivity|]. rewrite Ht, skip_app, Hov. reflexivity.
  - exists [], []. eexists. split; [apply h_leaves, Hclosed|]. cbn iota. do 2 eexists. split; [reflexivity|]. cbn [a_trace].
    split; [|split; [symmetry; apply app_nil_r|apply delivers_nil]].
    split; [exact Hroot|]. split; [exists f; auto|]. split; [exact Hfine|]. split; [exact Hcol|]. split; [|split; [exact Hcount|reflexivity]].
    cbn [o_users a_ses]. apply put_slike; [exact Hses|exact Logic.I].
Qed.

Lemma run_house fuel xs : deep <= fuel -> forall h a, hlike h a -> Forall typed_ok xs -> exists l res, goes_on (whole_complex rc) pc h xs l res /\
  delivered xs (fst (app_run P rc pc fuel (map act_of xs) a)) l /\
  match res with
  | inl h' => exists a', snd (app_run P rc pc fuel (map act_of xs) a) = AOk a' /\ hlike h' a'
  | inr e => snd (app_run P rc pc fuel (map act_of xs) a) = ended e
  end.
Proof.
  intros Hdeep. induction xs as [|x xs IH]; intros h a Hl Hx.
  - exists [], (inl h). split; [constructor|]. split; [constructor|]. exists a. auto.
  - inversion Hx as [|? ? H1 H2]; subst. cbn [map app_run].
    destruct (step_house fuel h x a Hdeep Hl H1) as (own & all & [h'|e] & Hh & Hstep).
    + destruct Hstep as (a' & evs & -> & Hl' & Htr & Hd). destruct (IH h' a' Hl' H2) as (l & res & G & D & R).
      exists ((own, all) :: l), res. split; [eapply g_cons; eassumption|].
      destruct (app_run P rc pc fuel (map act_of xs) a') as [es r]. cbn [fst snd] in *. split; [|exact R].
      rewrite Htr, skip_app. constructor; assumption.
    + destruct Hstep as (-> & -> & ->). exists [], (inr e). split; [apply g_broken, Hh|]. destruct e; (split; [constructor|reflexivity]).
Qed.
End Program.

(** ** From the start *)
Lemma start_like P f : Forall (readable P) (f_commands f) -> hlike P (morning (f_commands f)) (cx_start f).
Proof.
  intros H. split; [reflexivity|]. split; [exists f; auto|]. split; [apply Forall_and; [exact H|apply f_commands_one_line]|]. split; [reflexivity|]. split; [intros i; exact Logic.I|]. split; reflexivity.
Qed.
Lemma like_prompt P h a i u : hlike P h a -> o_users h i = Some u ->
  exists s, a_ses a i = Some s /\ prompt_text (world_of a i s) = Some (prompt_of (u_place u)).
Proof.
  intros (Hroot & _ & _ & _ & Hses & _) Hu. specialize (Hses i). rewrite Hu in Hses. destruct (a_ses a i) as [s|]; [|contradiction].
  exists s. split; [reflexivity|]. destruct Hses as (Hc & _). unfold prompt_text, world_of. cbn [w_cur w_root]. rewrite Hc, Hroot, clocated.
  destruct (u_place u); reflexivity.
Qed.
Lemma like_gone P h a i : hlike P h a -> o_users h i = None -> a_ses a i = None.
Proof. intros (_ & _ & _ & _ & Hses & _) Hu. specialize (Hses i). rewrite Hu in Hses. destruct (a_ses a i); [contradiction|reflexivity]. Qed.
Lemma like_toggle P h a : hlike P h a -> colour_kids a = if o_gone h then [] else [if cx_color (a_trace a) then lit "nocolor" else lit "color"].
Proof.
  intros (Hroot & _ & _ & Hcol & _). unfold colour_kids. rewrite Hroot, Hcol. destruct (o_colour h), (o_gone h); vm_compute; reflexivity.
Qed.
Lemma complete_run P rc pc fuel f xs : strict P = false -> deep <= fuel ->
  Forall (readable P) (f_commands f) ->
  Forall (fun x => match x with Types _ line => readable P line /\ one_line line | _ => True end) xs ->
  exists l res, goes_on (whole_complex rc) pc (morning (f_commands f)) xs l res /\
    delivered xs (fst (app_run P rc pc fuel (map act_of xs) (cx_start f))) l /\
    match res with
    | inl h => exists a, snd (app_run P rc pc fuel (map act_of xs) (cx_start f)) = AOk a /\ seen h a
    | inr e => snd (app_run P rc pc fuel (map act_of xs) (cx_start f)) = match e with Endless => AFuel | _ => AUB end
    end.
Proof.
  intros Hs Hdeep Hf Hx. destruct (run_house P rc pc Hs fuel xs Hdeep (morning (f_commands f)) (cx_start f) (start_like P f Hf) Hx) as (l & res & A & B & C).
  exists l, res. split; [exact A|]. split; [exact B|]. destruct res as [h|e]; [|exact C]. destruct C as (a & Ha & Hl). exists a. split; [exact Ha|].
  split; [|split; [|split]].
  - intros i. destruct (o_users h i) as [u|] eqn:Hu; [eapply like_prompt|eapply like_gone]; eassumption.
  - apply Hl.
  - destruct Hl as (_ & (f' & -> & Hf') & _). exact Hf'.
  - apply Hl.
Qed.
Lemma complete_toggle P rc pc fuel f xs a : strict P = false -> deep <= fuel ->
  Forall (readable P) (f_commands f) ->
  Forall (fun x => match x with Types _ line => readable P line /\ one_line line | _ => True end) xs ->
  snd (app_run P rc pc fuel (map act_of xs) (cx_start f)) = AOk a ->
  colour_kids a = [] \/ colour_kids a = [if cx_color (a_trace a) then lit "nocolor" else lit "color"].
Proof.
  intros Hs Hdeep Hf Hx Ha. destruct (run_house P rc pc Hs fuel xs Hdeep (morning (f_commands f)) (cx_start f) (start_like P f Hf) Hx) as (l & [h|[]] & _ & _ & C); [|congruence..].
  destruct C as (a' & Ha' & Hl). assert (a' = a) by congruence. subst a'. rewrite (like_toggle P h a Hl). destruct (o_gone h); auto.
Qed.
Lemma complete_unique rc pc h xs l r l' r' : goes_on (whole_complex rc) pc h xs l r -> goes_on (whole_complex rc) pc h xs l' r' -> l = l' /\ r = r'.
Proof.
  intros H H'. refine (goes_unique (whole_complex rc) pc _ h xs l r H l' r' H'). intros s v v' (a & A & _) (b & B & _). congruence.
Qed.
(** A line that recalls itself is never answered. *)
Lemma no_answer complex pc lc size c g line v : words line [lit "!"; v] -> int_text UInt v 0 ->
  forall u, 3 <= size -> u_lines u = [line; lit "help"] -> line <> lit "help" -> u_first u = 0%Z -> forall r, ~ answers complex pc lc size c g u line r.
Proof.
  intros Hw Hv u Hsize Hl Hne Hf r H.
  assert (Hfg : forall u0, u_lines u0 = [line; lit "help"] -> u_first u0 = 0%Z -> u_lines (forgets size line u0) = [line; lit "help"] /\ u_first (forgets size line u0) = 0%Z).
  { intros u0 A B. unfold forgets, keeps. rewrite A. cbn [rev app]. destruct (list_eq_dec ascii_dec (lit "help") line); [congruence|].
    destruct (Nat.ltb_spec size (S (length [line; lit "help"]))); [cbn in *; lia|]. cbn [u_lines u_first app removelast]. auto. }
  assert (Hin : forall u0, u_lines u0 = [line; lit "help"] -> u_first u0 = 0%Z -> In (0%Z, line) (remembered u0)).
  { intros u0 A B. unfold remembered. rewrite A, B. left. reflexivity. }
  remember line as line0 eqn:E0 in H.
  induction H as [u line1 Xw|u line1 Xw|u line1 Xw|u line1 Xw|u line1 ws Xw Hr Hl' Hf'|u line1 s v' Xw Xv Hn Hno|u line1 s v' l r Xw Xv Xin Ha IH|u line1 ws e Xw He|u line1 ws Xw N0 N1 N2 N3 N4 Hno];
    subst line1; pose proof (words_unique _ _ _ Hw Xw) as E; try discriminate E.
  - destruct (Hfg u Hl Hf) as (A & _). congruence.
  - injection E as <-. rewrite (int_text_unique _ _ _ _ Xv Hv) in Hno. destruct (Hfg u Hl Hf) as (A & B). exact (Hno _ (Hin _ A B)).
  - injection E as <-. rewrite (int_text_unique _ _ _ _ Xv Hv) in Xin. destruct (Hfg u Hl Hf) as (A & B). apply IH; [exact A|exact B|].
    eapply remembered_unique; [exact Xin|apply Hin; assumption].
  - subst ws. apply effects_global in He as (_ & _ & _ & _ & He). apply He. exists v, 0%Z. auto.
  - subst ws. apply N4. exists v, 0%Z. auto.
Qed.
Lemma complete_endless : exists f xs, Forall plain (f_commands f) /\ Forall (fun x => match x with Types _ line => plain line /\ one_line line | _ => True end) xs /\
  forall P rc pc fuel, strict P = false -> deep <= fuel -> snd (app_run P rc pc fuel (map act_of xs) (cx_start f)) = AFuel.
Proof.
  exists (Some (lit "! 0" ++ nl ++ lit "help" ++ nl)), [Comes; Types 0 (lit "! 0")].
  assert (A : Forall plain (f_commands (Some (lit "! 0" ++ nl ++ lit "help" ++ nl)))) by repeat constructor.
  assert (B : Forall (fun x => match x with Types _ line => plain line /\ one_line line | _ => True end) [Comes; Types 0 (lit "! 0")]).
  { repeat (apply Forall_cons; [first [exact Logic.I|split; [repeat constructor|vm_compute; intuition discriminate]]|]). apply Forall_nil. }
  split; [exact A|]. split; [exact B|]. intros P rc pc fuel Hs Hd.
  assert (Hp : forall l, plain l -> readable P l) by (intros l H; unfold readable; auto).
  destruct (complete_run P rc pc fuel _ [Comes; Types 0 (lit "! 0")] Hs Hd (Forall_impl _ Hp A)) as (l & res & G & _ & R).
  { eapply Forall_impl; [|exact B]. intros [|i line|i]; [auto| |auto]. intros (X & Y). split; [apply Hp, X|exact Y]. }
  assert (G' : goes_on (whole_complex rc) pc (morning (f_commands (Some (lit "! 0" ++ nl ++ lit "help" ++ nl)))) [Comes; Types 0 (lit "! 0")] [([], [])] (inr Endless)).
  { eapply g_cons; [apply h_comes; reflexivity|]. apply g_broken. eapply h_endless; [reflexivity|reflexivity|].
    apply (no_answer _ _ _ _ _ _ _ (lit "0")); [apply words_split; reflexivity| |cbn; lia|reflexivity|discriminate|reflexivity].
    split; [left|cbn; lia]. split; [discriminate|]. apply (digits_cons "0"%char 0 [] 0); [split; [lia|reflexivity]|constructor]. }
  destruct (complete_unique _ _ _ _ _ _ _ _ G G') as (_ & ->). exact R.
Qed.
