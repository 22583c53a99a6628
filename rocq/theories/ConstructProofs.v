(** * Proofs about sessions that could not be constructed *)

From Verif Require Import Base OutStreamModel OutStreamSpec OutStreamProofs ConstructModel ConstructSpec.
Open Scope nat_scope.
Open Scope list_scope.

Lemma came_S n ok : came_to n ok -> ok n = true -> came_to (S n) ok.
Proof. intros H E m M. destruct (Nat.eq_dec m n) as [->|]; [exact E|apply H; lia]. Qed.

Lemma insert_all_spec k : forall n ok y, came_to n ok ->
  (came_to (n + k) ok /\ insert_all k n ok y = Made y) \/
  (exists m, n <= m < n + k /\ came_to m ok /\ ok m = false /\ insert_all k n ok y = Failed y).
Proof.
  induction k as [|k IH]; intros n ok y H; cbn [insert_all].
  - left. rewrite Nat.add_0_r. split; [exact H|reflexivity].
  - destruct (ok n) eqn:E.
    + destruct (IH (S n) ok y (came_S n ok H E)) as [(A & B)|(m & A & B & C & D)].
      * left. replace (n + S k) with (S n + k) by lia. split; assumption.
      * right. exists m. split; [lia|]. split; [exact B|]. split; assumption.
    + right. exists n. split; [lia|]. split; [exact H|]. split; [exact E|reflexivity].
Qed.

Lemma construct_cases i ok y :
  (whole ok /\ construct i ok y = Made (register i y)) \/
  (early ok /\ construct i ok y = Failed y) \/
  (late ok /\ construct i ok y = Failed (register i y)).
Proof.
  assert (H0 : came_to 0 ok) by (intros m M; lia). unfold construct.
  destruct (ok 0) eqn:E0; cbn [negb]; [|right; left; split; [exists 0; split; [lia|split; assumption]|reflexivity]].
  pose proof (came_S 0 ok H0 E0) as H1.
  destruct (ok 1) eqn:E1; cbn [negb]; [|right; left; split; [exists 1; split; [lia|split; assumption]|reflexivity]].
  pose proof (came_S 1 ok H1 E1) as H2.
  destruct (ok 2) eqn:E2; cbn [negb]; [|right; left; split; [exists 2; split; [lia|split; assumption]|reflexivity]].
  pose proof (came_S 2 ok H2 E2) as H3.
  destruct (ok 3) eqn:E3; cbn [negb]; [|right; left; split; [exists 3; split; [lia|split; assumption]|reflexivity]].
  pose proof (came_S 3 ok H3 E3) as H4.
  destruct (insert_all_spec 4 4 ok (register i y) H4) as [(A & B)|(m & A & B & C & D)].
  - left. split; assumption.
  - right. right. split; [|exact D]. exists m. split; [lia|]. split; assumption.
Qed.

Lemma exclusive n m ok : n < m -> ok n = false -> came_to m ok -> False.
Proof. intros L E H. rewrite (H n L) in E. discriminate. Qed.
Lemma whole_early ok : whole ok -> early ok -> False.
Proof. intros H (n & L & _ & E). exact (exclusive n 8 ok ltac:(lia) E H). Qed.
Lemma whole_late ok : whole ok -> late ok -> False.
Proof. intros H (n & L & _ & E). exact (exclusive n 8 ok ltac:(lia) E H). Qed.
Lemma early_late ok : early ok -> late ok -> False.
Proof. intros (n & L & _ & E) (m & M & H & _). exact (exclusive n m ok ltac:(lia) E H). Qed.

Lemma construct_made i ok y : whole ok -> construct i ok y = Made (register i y).
Proof.
  intro H. destruct (construct_cases i ok y) as [(_ & E)|[(G & _)|(G & _)]]; [exact E| |].
  - destruct (whole_early ok H G).
  - destruct (whole_late ok H G).
Qed.
Lemma construct_early i ok y : early ok -> construct i ok y = Failed y.
Proof.
  intro H. destruct (construct_cases i ok y) as [(G & _)|[(_ & E)|(G & _)]]; [|exact E|].
  - destruct (whole_early ok G H).
  - destruct (early_late ok H G).
Qed.
Lemma construct_late i ok y : late ok -> construct i ok y = Failed (register i y).
Proof.
  intro H. destruct (construct_cases i ok y) as [(G & _)|[(G & _)|(_ & E)]]; [| |exact E].
  - destruct (whole_late ok G H).
  - destruct (early_late ok G H).
Qed.

Lemma taken_total os : exists os', taken_as os os'.
Proof.
  induction os as [|[o|i ok] os (os' & IH)].
  - exists []. constructor.
  - exists (o :: os'). constructor. exact IH.
  - destruct (construct_cases i ok o_init) as [(G & _)|[(G & _)|(G & _)]].
    + exists (Open i :: os'). apply ta_made; assumption.
    + exists os'. apply ta_early with (1 := G); assumption.
    + exists (Open i :: os'). apply ta_late; assumption.
Qed.

Lemma taken_run os os' : taken_as os os' -> forall y, x_run y os = o_run y os'.
Proof.
  induction 1 as [|o os os' _ IH|i ok os os' G _ IH|i ok os os' G _ IH|i ok os os' G _ IH]; intro y; cbn [x_run o_run x_step].
  - reflexivity.
  - destruct (o_step y o); [apply IH|reflexivity].
  - rewrite (construct_made i ok y G). apply IH.
  - rewrite (construct_late i ok y G). apply IH.
  - rewrite (construct_early i ok y G). apply IH.
Qed.

(** ** Left behind *)
Lemma all_reg f y y' : all_streams f y = Some y' -> o_reg y' = o_reg y.
Proof. unfold all_streams. destruct (each f (o_reg y) (o_str y)); [|discriminate]. intro E. injection E as <-. reflexivity. Qed.
Lemma on_reg i f y y' : on_str i f y = Some y' -> o_reg y' = o_reg y.
Proof. unfold on_str. destruct (o_str y i); [|discriminate]. intro E. injection E as <-. reflexivity. Qed.

Lemma register_in i j y : In i (o_reg y) -> In i (o_reg (register j y)).
Proof. intro H. cbn [register o_reg]. apply in_or_app. left. exact H. Qed.

Lemma step_keeps i o y y' : o <> XOp (Close i) -> In i (o_reg y) -> x_step y o = Some y' -> In i (o_reg y').
Proof.
  intros N H E. destruct o as [o|j ok]; cbn [x_step] in E.
  - destruct o as [j|j|s|c|j|j|j s|j g w f l]; cbn [o_step] in E.
    + injection E as <-. apply register_in, H.
    + injection E as <-. cbn [unregister o_reg]. apply filter_In. split; [exact H|].
      destruct (Nat.eqb_spec i j) as [->|]; [congruence|reflexivity].
    + rewrite (all_reg _ _ _ E). exact H.
    + rewrite (all_reg _ _ _ E). exact H.
    + injection E as <-. exact H.
    + injection E as <-. exact H.
    + rewrite (on_reg _ _ _ _ E). exact H.
    + rewrite (on_reg _ _ _ _ E). exact H.
  - destruct (construct_cases j ok y) as [(_ & C)|[(_ & C)|(_ & C)]]; rewrite C in E; injection E as <-.
    + apply register_in, H.
    + exact H.
    + apply register_in, H.
Qed.

Lemma run_keeps i os : forall y y', ~ In (XOp (Close i)) os -> In i (o_reg y) -> x_run y os = Some y' -> In i (o_reg y').
Proof.
  induction os as [|o os IH]; intros y y' N H E; cbn [x_run] in E; [injection E as <-; exact H|].
  destruct (x_step y o) as [y1|] eqn:E1; [|discriminate].
  apply (IH y1 y'); [intro G; apply N; right; exact G| |exact E].
  apply (step_keeps i o y y1); [intros ->; apply N; left; reflexivity|exact H|exact E1].
Qed.

Lemma x_run_app a : forall y b, x_run y (a ++ b) = match x_run y a with Some y' => x_run y' b | None => None end.
Proof.
  induction a as [|o a IH]; intros y b; cbn [x_run app]; [reflexivity|].
  destruct (x_step y o); [apply IH|reflexivity].
Qed.

Lemma each_missing f l : forall m i, In i l -> m i = None -> each f l m = None.
Proof.
  induction l as [|j l IH]; intros m i H M; [destruct H|]. cbn [each].
  destruct (m j) as [o|] eqn:Ej; [|reflexivity].
  destruct (Nat.eq_dec i j) as [->|D]; [congruence|].
  destruct H as [->|H]; [congruence|]. apply (IH _ i H). unfold upd_str.
  destruct (Nat.eqb_spec i j); [congruence|exact M].
Qed.

Lemma each_none f l : forall m, each f l m = None -> exists i, In i l /\ m i = None.
Proof.
  induction l as [|j l IH]; intros m E; cbn [each] in E; [discriminate|].
  destruct (m j) as [o|] eqn:Ej; [|exists j; split; [left; reflexivity|exact Ej]].
  destruct (IH _ E) as (i & H & M). exists i. split; [right; exact H|]. unfold upd_str in M.
  destruct (Nat.eqb_spec i j); [discriminate|exact M].
Qed.

Lemma each_same f l : forall m m', each f l m = Some m' -> forall i, m' i = None <-> m i = None.
Proof.
  induction l as [|j l IH]; intros m m' E i; cbn [each] in E; [injection E as <-; tauto|].
  destruct (m j) as [o|] eqn:Ej; [|discriminate]. rewrite (IH _ _ E i). unfold upd_str.
  destruct (Nat.eqb_spec i j) as [->|]; [split; congruence|tauto].
Qed.

Lemma left_dangling a i ok b y s c : late ok -> x_run o_init (a ++ XNew i ok :: b) = Some y ->
  ~ In (XOp (Close i)) b -> o_str y i = None -> xsputn s y = None /\ overflow c y = None.
Proof.
  intros L E N M. rewrite x_run_app in E. destruct (x_run o_init a) as [y0|]; [|discriminate].
  cbn [x_run x_step] in E. rewrite (construct_late i ok y0 L) in E.
  assert (H : In i (o_reg y)).
  { apply (run_keeps i b (register i y0) y N); [|exact E]. cbn [register o_reg]. apply in_or_app. right. left. reflexivity. }
  unfold xsputn, overflow, all_streams. rewrite !(each_missing _ _ _ i H M). split; reflexivity.
Qed.

Lemma close_cleans a i y : x_run o_init (a ++ [XOp (Close i)]) = Some y -> ~ In i (o_reg y).
Proof.
  rewrite x_run_app. destruct (x_run o_init a) as [y0|]; [|discriminate]. cbn. intro E. injection E as <-.
  cbn [unregister o_reg]. intro H. apply filter_In in H as [_ H]. rewrite Nat.eqb_refl in H. discriminate.
Qed.

(** ** Nothing else goes wrong *)
Record fine (y : osys) (opens alive lates gone : list nat) : Prop := {
  fine_reg : forall j, In j (o_reg y) -> In j opens \/ In j lates;
  fine_open : forall j, In j opens -> In j alive;
  fine_str : forall j, In j alive -> o_str y j <> None;
  fine_late : forall j, In j lates -> In j alive \/ In j gone
}.

Definition culprit (lates gone : list nat) (os : list xop) : Prop :=
  exists i, (In i lates \/ exists ok, In (XNew i ok) os /\ late ok) /\ (In i gone \/ In (XOp (Destroy i)) os).

Lemma culprit_cons lates gone o os : culprit lates gone os -> culprit lates gone (o :: os).
Proof.
  intros (i & A & B). exists i. split.
  - destruct A as [A|(ok & A & L)]; [left; exact A|right; exists ok; split; [right; exact A|exact L]].
  - destruct B as [B|B]; [left; exact B|right; right; exact B].
Qed.

Lemma not_alive_late y opens alive lates gone j : fine y opens alive lates gone -> In j (o_reg y) ->
  o_str y j = None -> In j lates /\ In j gone.
Proof.
  intros F R N.
  assert (A : ~ In j alive) by (intro A; exact (fine_str _ _ _ _ _ F j A N)).
  destruct (fine_reg _ _ _ _ _ F j R) as [O|L]; [destruct (A (fine_open _ _ _ _ _ F j O))|].
  split; [exact L|]. destruct (fine_late _ _ _ _ _ F j L); [contradiction|assumption].
Qed.

Lemma all_fine f y y' opens alive lates gone : all_streams f y = Some y' -> fine y opens alive lates gone -> fine y' opens alive lates gone.
Proof.
  unfold all_streams. destruct (each f (o_reg y) (o_str y)) as [m|] eqn:E; [|discriminate]. intros G F. injection G as <-.
  split; cbn [o_reg o_str]; try apply F. intros j A N. apply (each_same _ _ _ _ E j) in N. exact (fine_str _ _ _ _ _ F j A N).
Qed.

Lemma on_fine i f y opens alive lates gone : In i alive -> fine y opens alive lates gone ->
  exists y', on_str i f y = Some y' /\ fine y' opens alive lates gone.
Proof.
  intros A F. unfold on_str. pose proof (fine_str _ _ _ _ _ F i A) as N.
  destruct (o_str y i) as [o|]; [|congruence]. eexists. split; [reflexivity|].
  split; cbn [o_reg o_str]; try apply F. intros j B. unfold upd_str. destruct (Nat.eqb_spec j i); [discriminate|].
  exact (fine_str _ _ _ _ _ F j B).
Qed.

Lemma undefined_culprit opens alive os : careful opens alive os -> forall y lates gone, fine y opens alive lates gone ->
  x_run y os = None -> culprit lates gone os.
Proof.
  induction 1 as [opens alive|opens alive i ok os W NO A C IH|opens alive i ok os W NO A C IH|opens alive i os O C IH
    |opens alive i os NA C IH|opens alive i os A NO C IH|opens alive i s os A C IH|opens alive i g w f l os A C IH
    |opens alive s os C IH|opens alive c os C IH]; intros y lates gone F E; cbn [x_run] in E.
  - discriminate.
  - cbn [x_step] in E. rewrite (construct_made i ok y W) in E. apply culprit_cons. refine (IH _ _ _ _ E).
    split; cbn [register o_reg o_str].
    + intros j H. apply in_app_or in H as [H|[<-|[]]]; [|left; left; reflexivity].
      destruct (fine_reg _ _ _ _ _ F j H); [left; right; assumption|right; assumption].
    + intros j [<-|H]; [exact A|exact (fine_open _ _ _ _ _ F j H)].
    + apply F.
    + apply F.
  - cbn [x_step] in E. destruct (construct_cases i ok y) as [(G & _)|[(_ & G)|(L & G)]]; [contradiction| |]; rewrite G in E.
    + apply culprit_cons. exact (IH y lates gone F E).
    + assert (F' : fine (register i y) opens alive (i :: lates) gone).
      { split; cbn [register o_reg o_str].
        - intros j H. apply in_app_or in H as [H|[<-|[]]]; [|right; left; reflexivity].
          destruct (fine_reg _ _ _ _ _ F j H); [left; assumption|right; right; assumption].
        - apply F.
        - apply F.
        - intros j [<-|H]; [left; exact A|exact (fine_late _ _ _ _ _ F j H)]. }
      destruct (IH _ _ _ F' E) as (j & P & Q). exists j. split.
      * destruct P as [[<-|P]|(ok' & P & L')].
        -- right. exists ok. split; [left; reflexivity|exact L].
        -- left. exact P.
        -- right. exists ok'. split; [right; exact P|exact L'].
      * destruct Q as [Q|Q]; [left; exact Q|right; right; exact Q].
  - cbn [x_step o_step] in E. apply culprit_cons. refine (IH _ _ _ _ E).
    split; cbn [unregister o_reg o_str].
    + intros j H. apply filter_In in H as [H D]. destruct (Nat.eqb_spec j i) as [->|D']; [discriminate|].
      destruct (fine_reg _ _ _ _ _ F j H); [left; apply in_in_remove; assumption|right; assumption].
    + intros j H. apply in_remove in H as [H _]. exact (fine_open _ _ _ _ _ F j H).
    + apply F.
    + apply F.
  - cbn [x_step o_step] in E. apply culprit_cons. refine (IH _ _ _ _ E).
    split; cbn [o_reg o_str].
    + apply F.
    + intros j H. right. exact (fine_open _ _ _ _ _ F j H).
    + intros j H. unfold upd_str. destruct (Nat.eqb_spec j i); [discriminate|].
      destruct H as [H|H]; [congruence|exact (fine_str _ _ _ _ _ F j H)].
    + intros j H. destruct (fine_late _ _ _ _ _ F j H); [left; right; assumption|right; assumption].
  - cbn [x_step o_step] in E.
    assert (F' : fine (mkOsys (o_reg y) (upd_str (o_str y) i None)) opens (remove Nat.eq_dec i alive) lates (i :: gone)).
    { split; cbn [o_reg o_str].
      - apply F.
      - intros j H. apply in_in_remove; [intros ->; contradiction|exact (fine_open _ _ _ _ _ F j H)].
      - intros j H. apply in_remove in H as [H D]. unfold upd_str. destruct (Nat.eqb_spec j i); [congruence|].
        exact (fine_str _ _ _ _ _ F j H).
      - intros j H. destruct (fine_late _ _ _ _ _ F j H) as [G|G]; [|right; right; exact G].
        destruct (Nat.eq_dec j i) as [->|D]; [right; left; reflexivity|left; apply in_in_remove; assumption]. }
    destruct (IH _ _ _ F' E) as (j & P & Q). exists j. split.
    + destruct P as [P|(ok & P & L)]; [left; exact P|right; exists ok; split; [right; exact P|exact L]].
    + destruct Q as [[<-|Q]|Q]; [right; left; reflexivity|left; exact Q|right; right; exact Q].
  - cbn [x_step o_step] in E. destruct (on_fine i (buf_sputn s) y opens alive lates gone A F) as (y' & G & F').
    rewrite G in E. apply culprit_cons. exact (IH _ _ _ F' E).
  - cbn [x_step o_step] in E. destruct (on_fine i (fun o => mkOs (os_text o) g w f l) y opens alive lates gone A F) as (y' & G & F').
    rewrite G in E. apply culprit_cons. exact (IH _ _ _ F' E).
  - cbn [x_step o_step] in E. unfold xsputn in E. destruct (all_streams (buf_sputn s) y) as [y'|] eqn:G.
    + apply culprit_cons. exact (IH _ _ _ (all_fine _ _ _ _ _ _ _ G F) E).
    + unfold all_streams in G. destruct (each _ _ _) eqn:G'; [discriminate|]. apply each_none in G' as (j & R & N).
      destruct (not_alive_late _ _ _ _ _ j F R N) as [P Q]. exists j. split; [left; exact P|left; exact Q].
  - cbn [x_step o_step] in E. unfold overflow in E. destruct (all_streams (put_char c) y) as [y'|] eqn:G.
    + apply culprit_cons. exact (IH _ _ _ (all_fine _ _ _ _ _ _ _ G F) E).
    + unfold all_streams in G. destruct (each _ _ _) eqn:G'; [discriminate|]. apply each_none in G' as (j & R & N).
      destruct (not_alive_late _ _ _ _ _ j F R N) as [P Q]. exists j. split; [left; exact P|left; exact Q].
Qed.

Lemma only_late os : careful [] [] os -> x_run o_init os = None ->
  exists i ok, In (XNew i ok) os /\ late ok /\ In (XOp (Destroy i)) os.
Proof.
  intros C E. assert (F : fine o_init [] [] [] []).
  { split; cbn; try tauto. }
  destruct (undefined_culprit [] [] os C o_init [] [] F E) as (i & [[]|(ok & A & L)] & [[]|D]).
  exists i, ok. split; [exact A|]. split; [exact L|exact D].
Qed.
