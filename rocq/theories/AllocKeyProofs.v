(** * Proofs about TAB and Clear when memory runs out *)

From Verif Require Import Base HistoryModel HistorySpec TerminalModel TerminalSpec TerminalProofs PrefixModel PrefixSpec PrefixProofs
  AllocModel AllocSpec AllocTermModel AllocTermSpec AllocTermProofs AllocBrowseModel AllocBrowseSpec AllocBrowseProofs AllocKeyModel AllocKeySpec.
Open Scope nat_scope.
Open Scope list_scope.

Lemma k_set_cases ltr tty color ok s t e : holds t e ->
  (can_set s e ok /\ exists t', k_set ltr tty color ok s t = KDone t' /\ holds t' (mkEd (rev s) [])) \/
  (~ can_set s e ok /\ exists t', k_set ltr tty color ok s t = KThrew t' /\ holds t' e).
Proof.
  intro H. destruct (then_set_cases ltr tty color ok s (history_init 1) t e H) as [(C & t' & E & G)|(C & t' & E & G)];
    unfold then_set in E; unfold k_set; destruct (set_line_m ltr tty color ok s t); try discriminate; injection E as ->.
  - left. split; [exact C|]. eexists. split; [reflexivity|exact G].
  - right. split; [exact C|]. eexists. split; [reflexivity|exact G].
Qed.

Lemma can_set_home s e ok : can_set s (mkEd [] (ed_text e)) ok <-> can_set s e ok.
Proof. unfold can_set. cbn [needs]. unfold ed_text at 1. cbn [before after rev app]. tauto. Qed.
Lemma holds_home pf t e : holds t e -> holds (reset_cursor (forced pf t)) (mkEd [] (ed_text e)).
Proof. intros [A B]. split; cbn; [exact A|reflexivity]. Qed.
Lemma holds_forced pf t e : holds t e -> holds (forced pf t) e.
Proof. intros [A B]. split; assumption. Qed.

Lemma came_2 ok : ok 0 = true -> ok 1 = true -> came_to 2 ok.
Proof. intros A B [|[|m]] L; [exact A|exact B|lia]. Qed.
Lemma came_next n ok : came_to n ok -> ok n = true -> came_to (S n) ok.
Proof. intros H E m M. destruct (Nat.eq_dec m n) as [->|]; [exact E|apply H; lia]. Qed.
Lemma not_came n m ok : m < n -> ok m = false -> ~ came_to n ok.
Proof. intros L E H. rewrite (H m L) in E. discriminate. Qed.

Lemma clear_cases ltr tty color pf ok t e : holds t e ->
  (came_to 2 ok /\ can_set (tm_line t) e (from 2 ok) /\
    exists t', clear_m ltr tty color pf ok t = KDone t' /\ holds t' (mkEd (rev (tm_line t)) [])) \/
  (~ (came_to 2 ok /\ can_set (tm_line t) e (from 2 ok)) /\
    exists t' e', clear_m ltr tty color pf ok t = KThrew t' /\ holds t' e' /\ e' = if ok 0 && ok 1 then mkEd [] (ed_text e) else e).
Proof.
  intro H. unfold clear_m. destruct (ok 0) eqn:E0; cbn [negb andb].
  2: { right. split; [intros [C _]; exact (not_came 2 0 ok ltac:(lia) E0 C)|]. exists t, e. split; [reflexivity|]. split; [exact H|reflexivity]. }
  destruct (ok 1) eqn:E1; cbn [negb andb].
  2: { right. split; [intros [C _]; exact (not_came 2 1 ok ltac:(lia) E1 C)|]. exists (forced pf t), e.
       split; [reflexivity|]. split; [exact (holds_forced pf t e H)|reflexivity]. }
  destruct (k_set_cases ltr tty color (from 2 ok) (tm_line t) _ _ (holds_home pf t e H)) as [(C & t' & E & G)|(C & t' & E & G)].
  - left. split; [exact (came_2 ok E0 E1)|]. split; [apply can_set_home; exact C|]. exists t'. split; [exact E|exact G].
  - right. split; [intros [_ X]; apply C; apply can_set_home; exact X|]. exists t', (mkEd [] (ed_text e)).
    split; [exact E|]. split; [exact G|reflexivity].
Qed.

Lemma tab_cases ltr tty color pf ok l t e : holds t e ->
  exists o n, tab_does (tm_line t) l o n /\
  ((came_to n ok /\ (forall s, o = Some s -> can_set s e (from n ok)) /\
    exists t', tab_m ltr tty color pf ok l t = KDone t' /\
      match o with None => t' = t | Some s => holds t' (mkEd (rev s) []) end) \/
   (~ (came_to n ok /\ (forall s, o = Some s -> can_set s e (from n ok))) /\
    exists t' e', tab_m ltr tty color pf ok l t = KThrew t' /\ holds t' e' /\
      (e' = e \/ (e' = mkEd [] (ed_text e) /\ n = 5 /\ came_to 5 ok)))).
Proof.
  intro H.
  assert (D : exists o n, tab_does (tm_line t) l o n).
  { destruct l as [|c [|d l]].
    - exists None, 2. constructor.
    - eexists _, _. apply td_one.
    - destruct (common_prefix_spec (c :: d :: l) ltac:(discriminate)) as (pre & _ & P).
      destruct (Nat.ltb_spec (length (tm_line t)) (length pre)).
      + exists (Some pre), 3. apply td_longer; [cbn; lia|exact P|assumption].
      + exists (Some (tm_line t)), 5. apply (td_list _ _ pre); [cbn; lia|exact P|assumption]. }
  assert (F : forall m, m < 2 -> ok m = false -> tab_m ltr tty color pf ok l t = KThrew t).
  { intros m L E. unfold tab_m. destruct m as [|[|m]]; [rewrite E; reflexivity| |lia].
    rewrite E. destruct (ok 0); reflexivity. }
  assert (LT : forall o n, tab_does (tm_line t) l o n -> 2 <= n) by (intros o n []; lia).
  destruct (ok 0) eqn:E0.
  2: { destruct D as (o & n & D). exists o, n. split; [exact D|]. right. pose proof (LT o n D).
       split; [intros [C _]; exact (not_came n 0 ok ltac:(lia) E0 C)|]. exists t, e. split; [exact (F 0 ltac:(lia) E0)|].
       split; [exact H|left; reflexivity]. }
  destruct (ok 1) eqn:E1.
  2: { destruct D as (o & n & D). exists o, n. split; [exact D|]. right. pose proof (LT o n D).
       split; [intros [C _]; exact (not_came n 1 ok ltac:(lia) E1 C)|]. exists t, e. split; [exact (F 1 ltac:(lia) E1)|].
       split; [exact H|left; reflexivity]. }
  pose proof (came_2 ok E0 E1) as C2. clear D F LT. unfold tab_m. rewrite E0, E1. cbn [negb].
  destruct l as [|c [|d l]].
  - exists None, 2. split; [constructor|]. left. split; [exact C2|]. split; [discriminate|]. exists t. split; reflexivity.
  - exists (Some (c ++ [" "%char])), 3. split; [apply td_one|]. destruct (ok 2) eqn:E2; cbn [negb].
    2: { right. split; [intros [C _]; exact (not_came 3 2 ok ltac:(lia) E2 C)|]. exists t, e. split; [reflexivity|].
         split; [exact H|left; reflexivity]. }
    destruct (k_set_cases ltr tty color (from 3 ok) (c ++ [" "%char]) t e H) as [(C & t' & E & G)|(C & t' & E & G)].
    + left. split; [exact (came_next 2 ok C2 E2)|]. split; [intros s X; injection X as <-; exact C|]. exists t'. split; [exact E|exact G].
    + right. split; [intros [_ X]; exact (C (X _ eq_refl))|]. exists t', e. split; [exact E|]. split; [exact G|left; reflexivity].
  - destruct (common_prefix_spec (c :: d :: l) ltac:(discriminate)) as (pre & P & Q). rewrite P.
    destruct (Nat.ltb_spec (length (tm_line t)) (length pre)) as [Lp|Lp].
    + exists (Some pre), 3. split; [apply td_longer; [cbn; lia|exact Q|exact Lp]|]. destruct (ok 2) eqn:E2; cbn [negb].
      2: { right. split; [intros [C _]; exact (not_came 3 2 ok ltac:(lia) E2 C)|]. exists t, e. split; [reflexivity|].
           split; [exact H|left; reflexivity]. }
      destruct (k_set_cases ltr tty color (from 3 ok) pre t e H) as [(C & t' & E & G)|(C & t' & E & G)].
      * left. split; [exact (came_next 2 ok C2 E2)|]. split; [intros s X; injection X as <-; exact C|]. exists t'. split; [exact E|exact G].
      * right. split; [intros [_ X]; exact (C (X _ eq_refl))|]. exists t', e. split; [exact E|]. split; [exact G|left; reflexivity].
    + exists (Some (tm_line t)), 5. split; [apply (td_list _ _ pre); [cbn; lia|exact Q|exact Lp]|]. destruct (ok 2) eqn:E2; cbn [negb].
      2: { right. split; [intros [C _]; exact (not_came 5 2 ok ltac:(lia) E2 C)|]. exists t, e. split; [reflexivity|].
           split; [exact H|left; reflexivity]. }
      destruct (ok 3) eqn:E3; cbn [negb].
      2: { right. split; [intros [C _]; exact (not_came 5 3 ok ltac:(lia) E3 C)|]. exists t, e. split; [reflexivity|].
           split; [exact H|left; reflexivity]. }
      destruct (ok 4) eqn:E4; cbn [negb].
      2: { right. split; [intros [C _]; exact (not_came 5 4 ok ltac:(lia) E4 C)|]. exists (forced pf t), e. split; [reflexivity|].
           split; [exact (holds_forced pf t e H)|left; reflexivity]. }
      pose proof (came_next 4 ok (came_next 3 ok (came_next 2 ok C2 E2) E3) E4) as C5.
      destruct (k_set_cases ltr tty color (from 5 ok) (tm_line t) _ _ (holds_home pf t e H)) as [(C & t' & E & G)|(C & t' & E & G)].
      * left. split; [exact C5|]. split; [intros s X; injection X as <-; apply can_set_home; exact C|]. exists t'. split; [exact E|exact G].
      * right. split; [intros [_ X]; apply C; apply can_set_home; exact (X _ eq_refl)|]. exists t', (mkEd [] (ed_text e)).
        split; [exact E|]. split; [exact G|]. right. split; [reflexivity|]. split; [reflexivity|exact C5].
Qed.

Lemma s_step_keeps ltr tty k size h t e : size >= 1 -> reachable_m size h -> holds t e ->
  exists h1 t1 e1, (s_step ltr tty k h t = BDone h1 t1 \/ s_step ltr tty k h t = BThrew h1 t1) /\ reachable_m size h1 /\ holds t1 e1.
Proof.
  intros Hs R H. destruct k as [k color pf ok]. unfold s_step. cbn [sm_key sm_color sm_force sm_ok]. destruct k as [k| | | |l].
  - destruct (step_m ltr tty (mkOpm color (EKey k) ok) t e H) as (out & t' & E & H' & _).
    unfold run_op_m in E. cbn [op_ed op_color op_ok] in E.
    destruct (keypressed_m ltr tty color ok k t); cbn [outcome] in E; [| |discriminate]; injection E as _ _ ->;
      eexists h, t', _; (split; [|split; [exact R|exact H']]); [left|right]; reflexivity.
  - exact (proj1 (step_cases ltr tty (mkBkey true color ok) size h t e Hs R H)).
  - exact (proj1 (step_cases ltr tty (mkBkey false color ok) size h t e Hs R H)).
  - destruct (clear_cases ltr tty color pf ok t e H) as [(_ & _ & t' & E & G)|(_ & t' & e' & E & G & _)]; rewrite E; cbn [of_kres];
      eexists h, t', _; (split; [|split; [exact R|exact G]]); [left|right]; reflexivity.
  - destruct (tab_cases ltr tty color pf ok l t e H) as (o & n & _ & [(_ & _ & t' & E & G)|(_ & t' & e' & E & G & _)]); rewrite E; cbn [of_kres].
    + destruct o as [s|]; [|subst t']; eexists h, _, _; (split; [left; reflexivity|]); (split; [exact R|]); [exact G|exact H].
    + eexists h, t', _. split; [right; reflexivity|]. split; [exact R|exact G].
Qed.

Lemma s_defined ltr tty ks : forall size h t e, size >= 1 -> reachable_m size h -> holds t e ->
  exists h' t' e', s_run ltr tty ks h t = Some (h', t') /\ reachable_m size h' /\ holds t' e'.
Proof.
  induction ks as [|k ks IH]; intros size h t e Hs R H; cbn [s_run].
  - exists h, t, e. split; [reflexivity|]. split; assumption.
  - destruct (s_step_keeps ltr tty k size h t e Hs R H) as (h1 & t1 & e1 & [E|E] & R1 & H1); rewrite E; exact (IH size h1 t1 e1 Hs R1 H1).
Qed.
