(** * Proofs about browsing the history when memory runs out *)

From Verif Require Import Base HistoryModel HistorySpec HistoryProofs TerminalModel TerminalSpec TerminalProofs AllocModel AllocSpec AllocProofs
  AllocTermModel AllocTermSpec AllocTermProofs AllocBrowseModel AllocBrowseSpec.
Open Scope nat_scope.
Open Scope list_scope.

Lemma then_set_cases ltr tty color ok s h t e : holds t e ->
  (can_set s e ok /\ exists t', then_set ltr tty color ok s h t = BDone h t' /\ holds t' (mkEd (rev s) [])) \/
  (~ can_set s e ok /\ exists t', then_set ltr tty color ok s h t = BThrew h t' /\ holds t' e).
Proof.
  intro H. destruct (step_m ltr tty (mkOpm color (ESet s) ok) t e H) as (out & t' & E & H' & _).
  unfold run_op_m in E. cbn [op_ed op_color op_ok] in E. unfold ed_op_m in *. cbn [op_ed op_ok] in *.
  unfold can_set, then_set. destruct (first_fail (needs (ESet s) e) ok) as [n|]; cbn [fst snd in_effect ed_op] in *.
  - right. split; [discriminate|]. exists t'.
    destruct (set_line_m ltr tty color ok s t); cbn [outcome] in E; [discriminate| |discriminate]. injection E as _ ->.
    split; [reflexivity|exact H'].
  - left. split; [reflexivity|]. exists t'.
    destruct (set_line_m ltr tty color ok s t); cbn [outcome] in E; [|discriminate|discriminate]. injection E as _ _ ->.
    split; [reflexivity|exact H'].
Qed.

Lemma holds_set t s : holds t (mkEd (rev s) []) -> tm_line t = s /\ tm_pos t = length s.
Proof.
  intros [A B]. unfold ed_text in A. cbn [before after] in *. rewrite rev_involutive, app_nil_r in A. rewrite rev_length in B.
  split; assumption.
Qed.

Lemma up_cases ltr tty color ok size h t e : size >= 1 -> reachable_m size h -> holds t e ->
  exists s h1, previous h (tm_line t) = Some (s, h1) /\
  ((ok 0 && ok 1 = false /\ up_m ltr tty color ok h t = BThrew h t) \/
   (ok 0 && ok 1 = true /\ ~ (ok 2 = true /\ can_set s e (fun n => ok (3 + n))) /\
    exists t', up_m ltr tty color ok h t = BThrew h1 t' /\ holds t' e) \/
   (ok 0 && ok 1 = true /\ ok 2 = true /\ can_set s e (fun n => ok (3 + n)) /\
    exists t', up_m ltr tty color ok h t = BDone h1 t' /\ holds t' (mkEd (rev s) []))).
Proof.
  intros Hs R H. destruct (m_up_exact size h (fun n => ok (S n)) (tm_line t) Hs R) as (h1 & E & P).
  cbn [hstep hstep_m] in E, P. destruct (previous h (tm_line t)) as [[s h1']|] eqn:Q; [|discriminate].
  cbn [option_map snd] in E. injection E as ->. exists s, h1. split; [reflexivity|].
  unfold up_m, get_line. rewrite P, Q. destruct (ok 0); cbn [negb andb]; [|left; split; reflexivity].
  destruct (ok 1); [|left; split; reflexivity]. right. destruct (ok 2).
  - destruct (then_set_cases ltr tty color (fun n => ok (3 + n)) s h1 t e H) as [(C & t' & G)|(C & t' & G)].
    + right. split; [reflexivity|]. split; [reflexivity|]. split; [exact C|]. exists t'. exact G.
    + left. split; [reflexivity|]. split; [tauto|]. exists t'. exact G.
  - left. split; [reflexivity|]. split; [intros [X _]; discriminate|]. exists t. split; [reflexivity|exact H].
Qed.

Lemma next_cases ok size h : size >= 1 -> reachable_m size h ->
  exists s h1, next h = Some (s, h1) /\ (next_m ok h = ADone h1 \/ (ok = false /\ next_m ok h = AThrew h1)) /\
    (h_cur h <> 0 -> next_m ok h = if ok then ADone h1 else AThrew h1).
Proof.
  intros Hs R. destruct (reachable_m_inv size h Hs R) as [I M].
  destruct (hstep_inv h ODown I ltac:(lia)) as (h0 & E0 & I0 & _). cbn [hstep] in E0. pose proof (next_ok h) as P.
  destruct (next h) as [[s h1]|]; [|discriminate]. exists s, h1. split; [reflexivity|].
  unfold next_m in *. destruct (h_buf h) as [|x b] eqn:B.
  - injection P as <-. split; [left; reflexivity|]. intro C. exfalso. apply C.
    destruct (h_browse h) eqn:W; [|exact (inv_insert h I W)]. pose proof (inv_browse h I W) as L. rewrite B in L. cbn in L. lia.
  - destruct (h_cur h) as [|c]; [injection P as <-; split; [left; reflexivity|lia]|].
    unfold return_m in *. destruct (nth_error _ _); [|discriminate]. injection P as <-.
    destruct ok; split; auto.
Qed.

Lemma down_cases ltr tty color ok size h t e : size >= 1 -> reachable_m size h -> holds t e ->
  exists s h1, next h = Some (s, h1) /\
  ((~ ((ok 0 = true \/ h_cur h = 0) /\ can_set s e (fun n => ok (1 + n))) /\
    exists t', down_m ltr tty color ok h t = BThrew h1 t' /\ holds t' e) \/
   ((ok 0 = true \/ h_cur h = 0) /\ can_set s e (fun n => ok (1 + n)) /\
    exists t', down_m ltr tty color ok h t = BDone h1 t' /\ holds t' (mkEd (rev s) []))).
Proof.
  intros Hs R H. destruct (next_cases (ok 0) size h Hs R) as (s & h1 & E & P & X). exists s, h1. split; [exact E|].
  unfold down_m. rewrite E.
  destruct (then_set_cases ltr tty color (fun n => ok (1 + n)) s h1 t e H) as [(C & t' & G)|(C & t' & G)].
  - destruct P as [P|[K P]]; rewrite P.
    + right. split; [|split; [exact C|exists t'; exact G]]. destruct (h_cur h) as [|c]; [right; reflexivity|].
      left. specialize (X ltac:(discriminate)). rewrite P in X. destruct (ok 0); [reflexivity|discriminate].
    + left. split; [|exists t; split; [reflexivity|exact H]]. intros [[O|O] _]; [congruence|].
      unfold next_m in P. rewrite O in P. destruct (h_buf h); discriminate.
  - left. split; [tauto|]. destruct P as [P|[K P]]; rewrite P; [exists t'; exact G|exists t; split; [reflexivity|exact H]].
Qed.

Lemma hrun_m_app a : forall h b, hrun_m h (a ++ b) = match hrun_m h a with Some h' => hrun_m h' b | None => None end.
Proof.
  induction a as [|[o ok] a IH]; intros h b; cbn [hrun_m app]; [reflexivity|].
  destruct (hstep_m h o ok); [apply IH|apply IH|reflexivity].
Qed.
Lemma reachable_step size h o h1 : reachable_m size h -> hstep h o = Some h1 -> reachable_m size h1.
Proof.
  intros (os & E) S. exists (os ++ [(o, fun _ => true)]). rewrite hrun_m_app, E. cbn [hrun_m].
  rewrite (hstep_ok h o (fun _ => true) (fun _ => eq_refl)), S. reflexivity.
Qed.
Lemma reachable_up size h line s h1 : reachable_m size h -> previous h line = Some (s, h1) -> reachable_m size h1.
Proof. intros R E. apply (reachable_step size h (OUp line) h1 R). cbn [hstep]. rewrite E. reflexivity. Qed.
Lemma reachable_down size h s h1 : reachable_m size h -> next h = Some (s, h1) -> reachable_m size h1.
Proof. intros R E. apply (reachable_step size h ODown h1 R). cbn [hstep]. rewrite E. reflexivity. Qed.

(** Each key: the history moves or not, the line is replaced or not. *)
Lemma step_cases ltr tty k size h t e : size >= 1 -> reachable_m size h -> holds t e ->
  (exists h1 t1 e1, (b_step ltr tty k h t = BDone h1 t1 \/ b_step ltr tty k h t = BThrew h1 t1) /\
    reachable_m size h1 /\ holds t1 e1) /\ b_step ltr tty k h t <> BUB.
Proof.
  intros Hs R H. unfold b_step. destruct (bk_up k).
  - destruct (up_cases ltr tty (bk_color k) (bk_ok k) size h t e Hs R H) as (s & h1 & E & [(_ & ->)|[(_ & _ & t' & -> & H')|(_ & _ & _ & t' & -> & H')]]);
      (split; [|discriminate]).
    + exists h, t, e. split; [right; reflexivity|]. split; assumption.
    + exists h1, t', e. split; [right; reflexivity|]. split; [exact (reachable_up _ _ _ _ _ R E)|exact H'].
    + exists h1, t', (mkEd (rev s) []). split; [left; reflexivity|]. split; [exact (reachable_up _ _ _ _ _ R E)|exact H'].
  - destruct (down_cases ltr tty (bk_color k) (bk_ok k) size h t e Hs R H) as (s & h1 & E & [(_ & t' & -> & H')|(_ & _ & t' & -> & H')]);
      (split; [|discriminate]).
    + exists h1, t', e. split; [right; reflexivity|]. split; [exact (reachable_down _ _ _ _ R E)|exact H'].
    + exists h1, t', (mkEd (rev s) []). split; [left; reflexivity|]. split; [exact (reachable_down _ _ _ _ R E)|exact H'].
Qed.

Lemma b_defined ltr tty ks : forall size h t e, size >= 1 -> reachable_m size h -> holds t e ->
  exists rs h' t' e', b_run ltr tty ks h t = Some (rs, h', t') /\ reachable_m size h' /\ holds t' e'.
Proof.
  induction ks as [|k ks IH]; intros size h t e Hs R H; cbn [b_run].
  - exists [], h, t, e. split; [reflexivity|]. split; assumption.
  - destruct (step_cases ltr tty k size h t e Hs R H) as [(h1 & t1 & e1 & [E|E] & R1 & H1) _]; rewrite E;
      destruct (IH size h1 t1 e1 Hs R1 H1) as (rs & h' & t' & e' & -> & Q); eexists _, h', t', e'; (split; [reflexivity|exact Q]).
Qed.

(** ** The entries *)
Lemma set_nth_same (l : list str) : forall i x, nth_error l i = Some x -> set_nth i x l = Some l.
Proof.
  induction l as [|y l IH]; intros [|i] x E; cbn in *; try discriminate.
  - injection E as ->. reflexivity.
  - rewrite (IH i x E). reflexivity.
Qed.

Lemma up_entries h t s h1 : h_browse h = true -> in_step h t -> previous h (tm_line t) = Some (s, h1) ->
  h_browse h1 = true /\ tl (h_buf h1) = tl (h_buf h) /\ nth_error (h_buf h1) (h_cur h1) = Some s.
Proof.
  intros B S E. unfold previous in E. rewrite B in E.
  destruct (set_nth (h_cur h) (tm_line t) (h_buf h)) as [b|] eqn:N; [|discriminate].
  assert (T : tl b = tl (h_buf h)).
  { destruct (h_cur h) as [|c] eqn:C.
    - destruct (h_buf h); cbn in N; [discriminate|]. injection N as <-. reflexivity.
    - unfold in_step in S. rewrite C in S. rewrite (set_nth_same _ _ _ (S ltac:(discriminate))) in N. injection N as <-. reflexivity. }
  cbn [h_buf h_cur] in E. destruct (nth_error b _) eqn:X; [|discriminate]. injection E as <- <-. cbn [h_browse h_buf h_cur].
  split; [reflexivity|]. split; [exact T|exact X].
Qed.
Lemma down_entries h s h1 : next h = Some (s, h1) ->
  h_browse h1 = h_browse h /\ h_buf h1 = h_buf h /\ (h_cur h1 <> 0 -> nth_error (h_buf h1) (h_cur h1) = Some s \/ h1 = h).
Proof.
  unfold next. intro E. destruct (h_buf h) as [|x b] eqn:B.
  - injection E as <- <-. split; [reflexivity|]. split; [exact B|]. right. reflexivity.
  - destruct (h_cur h) as [|c] eqn:C.
    + injection E as <- <-. split; [reflexivity|]. split; [exact B|]. rewrite C. intro Z0. congruence.
    + destruct (nth_error (x :: b) c) eqn:X; [|discriminate]. injection E as <- <-. cbn [h_browse h_buf h_cur].
      split; [reflexivity|]. split; [reflexivity|]. intros _. left. exact X.
Qed.

Lemma b_kept ltr tty ks : forall size h t e b rs h' t', size >= 1 -> reachable_m size h -> holds t e -> h_browse h = true ->
  (b = true -> in_step h t) -> b_run ltr tty ks h t = Some (rs, h', t') -> up_after_success b ks rs ->
  h_browse h' = true /\ tl (h_buf h') = tl (h_buf h).
Proof.
  induction ks as [|k ks IH]; intros size h t e b rs h' t' Hs R H B S E U; cbn [b_run] in E.
  - injection E as <- <- <-. split; [exact B|reflexivity].
  - unfold b_step in E. destruct (bk_up k) eqn:K.
    + destruct (up_cases ltr tty (bk_color k) (bk_ok k) size h t e Hs R H) as (s & h1 & P & [(_ & F)|[(_ & _ & t1 & F & H')|(_ & _ & _ & t1 & F & H')]]);
        rewrite F in E.
      * destruct (b_run ltr tty ks h t) as [[[rs1 h2] t2]|] eqn:G; [|discriminate]. injection E as <- <- <-.
        destruct U as [_ U]. exact (IH size h t e false rs1 h2 t2 Hs R H B ltac:(discriminate) G U).
      * destruct (b_run ltr tty ks h1 t1) as [[[rs1 h2] t2]|] eqn:G; [|discriminate]. injection E as <- <- <-.
        destruct U as [V U]. destruct (up_entries h t s h1 B (S (V K)) P) as (B1 & T1 & _).
        destruct (IH size h1 t1 e false rs1 h2 t2 Hs (reachable_up _ _ _ _ _ R P) H' B1 ltac:(discriminate) G U) as [B2 T2].
        split; [exact B2|congruence].
      * destruct (b_run ltr tty ks h1 t1) as [[[rs1 h2] t2]|] eqn:G; [|discriminate]. injection E as <- <- <-.
        destruct U as [V U]. destruct (up_entries h t s h1 B (S (V K)) P) as (B1 & T1 & N1).
        destruct (IH size h1 t1 (mkEd (rev s) []) true rs1 h2 t2 Hs (reachable_up _ _ _ _ _ R P) H' B1) as [B2 T2];
          [|exact G|exact U|split; [exact B2|congruence]].
        intros _ _. destruct (holds_set t1 s H') as [-> _]. exact N1.
    + destruct (down_cases ltr tty (bk_color k) (bk_ok k) size h t e Hs R H) as (s & h1 & P & [(_ & t1 & F & H')|(_ & _ & t1 & F & H')]);
        rewrite F in E; destruct (down_entries h s h1 P) as (B1 & T1 & N1).
      * destruct (b_run ltr tty ks h1 t1) as [[[rs1 h2] t2]|] eqn:G; [|discriminate]. injection E as <- <- <-.
        destruct U as [_ U].
        destruct (IH size h1 t1 e false rs1 h2 t2 Hs (reachable_down _ _ _ _ R P) H' ltac:(congruence) ltac:(discriminate) G U) as [B2 T2].
        split; [exact B2|congruence].
      * destruct (b_run ltr tty ks h1 t1) as [[[rs1 h2] t2]|] eqn:G; [|discriminate]. injection E as <- <- <-.
        destruct U as [_ U].
        destruct (IH size h1 t1 (mkEd (rev s) []) true rs1 h2 t2 Hs (reachable_down _ _ _ _ R P) H' ltac:(congruence)) as [B2 T2];
          [|exact G|exact U|split; [exact B2|congruence]].
        intros _ C1. destruct (holds_set t1 s H') as [-> _]. destruct (N1 C1) as [X|X]; [exact X|].
        subst h1. exfalso. destruct (reachable_m_inv size h Hs R) as [I _]. pose proof (inv_browse h I B) as L.
        unfold next in P. destruct (h_buf h) as [|y l]; [cbn in L; lia|].
        destruct (h_cur h) as [|c] eqn:C; [congruence|]. destruct (nth_error (y :: l) c); [|discriminate].
        injection P as _ P. apply (f_equal h_cur) in P. cbn [h_cur] in P. lia.
Qed.

Lemma b_committed ltr tty ks size h t e rs h' t' : size >= 1 -> reachable_m size h -> holds t e -> h_browse h = true -> in_step h t ->
  b_run ltr tty ks h t = Some (rs, h', t') -> up_after_success true ks rs -> committed h' = committed h.
Proof.
  intros Hs R H B S E U. destruct (b_kept ltr tty ks size h t e true rs h' t' Hs R H B (fun _ => S) E U) as [B' T].
  unfold committed. rewrite B, B', T. reflexivity.
Qed.
