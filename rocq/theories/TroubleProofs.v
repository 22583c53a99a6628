(** * Proofs about shared history files with failures *)

From Verif Require Import Base StorageModel StorageSpec StorageProofs ShareModel ShareSpec ShareProofs FaultModel FaultSpec FaultProofs TroubleModel TroubleSpec.
Open Scope nat_scope.
Open Scope list_scope.

Lemma t_run_app l1 : forall l2 s, t_run (l1 ++ l2) s = match t_run l1 s with Some s' => t_run l2 s' | None => None end.
Proof. induction l1 as [|a l1 IH]; intros l2 s; [reflexivity|]. cbn. destruct (t_step a s); [apply IH|reflexivity]. Qed.
Lemma t_conservative l : forall s, t_run (map TAct l) s = s_run l s.
Proof. induction l as [|a l IH]; intros s; [reflexivity|]. cbn. destruct (s_step a s); [apply IH|reflexivity]. Qed.
Lemma t_calls_app l1 l2 : t_calls (l1 ++ l2) = t_calls l1 ++ t_calls l2.
Proof. induction l1 as [|[[i m c|i|i n]|i m c|i|i|i|i|i] l1 IH]; cbn; rewrite ?IH; reflexivity. Qed.
Lemma t_entered_app l1 : forall acc l2, t_entered acc (l1 ++ l2) = t_entered (t_entered acc l1) l2.
Proof. induction l1 as [|[[i m c|i|i n]|i m c|i|i|i|i|i] l1 IH]; intros acc l2; cbn; rewrite ?IH; reflexivity. Qed.
Lemma hits_app l1 l2 : hits (l1 ++ l2) = hits l1 + hits l2.
Proof. induction l1 as [|[[i m c|i|i n]|i m c|i|i|i|i|i] l1 IH]; cbn; rewrite ?IH; reflexivity. Qed.
Lemma entered_snoc os : forall acc o, entered acc (os ++ [o]) = entered (entered acc os) [o].
Proof. induction os as [|[r w m c|[| |k]] os IH]; intros acc o; cbn [app entered]; rewrite ?IH; reflexivity. Qed.
Lemma errors_snoc os o : write_errors (os ++ [o]) = write_errors os + incomplete o.
Proof. induction os as [|p os IH]; cbn [app write_errors]; [lia|rewrite IH; lia]. Qed.
Lemma x_run_snoc os o f : x_run (os ++ [o]) f = x_step (x_run os f) o.
Proof. unfold x_run. rewrite fold_left_app. reflexivity. Qed.

(** ** Calls one at a time *)
Definition text_of (r : rfault) (max : nat) (f0 : file) (cmds : list str) : str := put_lines (append_trim max (x_commands r f0) cmds).
Definition t_work (f0 : file) (max : nat) (cmds : list str) (p : sphase) (f : file) : Prop :=
  match p with
  | SIdle => False
  | SRead m c got => f = f0 /\ m = max /\ c = cmds /\ exists s rest, f0 = Some s /\ s = got ++ rest
  | SReady c => f = f0 /\ exists r, c = text_of r max f0 cmds
  | SWrite pos rest => exists r done, f = Some done /\ pos = length done /\ text_of r max f0 cmds = done ++ rest
  end.
(** Complete or interrupted, the call did what a call with failures does. *)
Lemma work_over f0 max cmds p f : t_work f0 max cmds p f -> exists r w, f = x_store r w max f0 cmds.
Proof.
  destruct p as [|m c got|c|pos rest]; cbn [t_work].
  - intros [].
  - intros (-> & _). exists ROk, WNoOpen. reflexivity.
  - intros (-> & _). exists ROk, WNoOpen. reflexivity.
  - intros (r & dn & -> & _ & E). exists r, (WError (length dn)). cbn [x_store]. fold (text_of r max f0 cmds). rewrite E, firstn_app, firstn_all, Nat.sub_diag.
    cbn [firstn]. rewrite app_nil_r. reflexivity.
Qed.
Lemma work_go f0 max cmds i n s s' : t_work f0 max cmds (sh_proc s i) (sh_file s) -> s_step (GoOn i n) s = Some s' ->
  (forall j, j <> i -> sh_proc s' j = sh_proc s j) /\
  (t_work f0 max cmds (sh_proc s' i) (sh_file s') \/ (sh_proc s' i = SIdle /\ exists r, sh_file s' = x_store r WOk max f0 cmds)).
Proof.
  intros H E. cbn [s_step] in E. destruct (sh_proc s i) as [|m c got|c|pos rest] eqn:Hp; [discriminate| | |].
  - destruct H as (Hf & -> & -> & (t & rest & E0 & ->)). rewrite Hf, E0 in E.
    rewrite skipn_app, skipn_all, Nat.sub_diag in E. cbn [app skipn] in E.
    destruct (firstn (S n) rest) as [|x piece] eqn:Hx; injection E as <-;
      (split; [intros j Hj; apply set_proc_other; exact Hj|]); left; rewrite set_proc_same; cbn [t_work sh_file set_proc].
    + apply firstn_S_nil in Hx. subst rest. split; [exact Hf|]. exists ROk. unfold text_of, to_write. rewrite E0. cbn [x_commands f_commands]. rewrite app_nil_r. reflexivity.
    + split; [exact Hf|]. split; [reflexivity|]. split; [reflexivity|]. exists (got ++ rest), (skipn (S n) rest). split; [exact E0|].
      rewrite <- app_assoc, <- Hx. rewrite firstn_skipn. reflexivity.
  - destruct H as (Hf & r & ->). injection E as <-. cbn [set_file sh_proc sh_file].
    split; [intros j Hj; apply set_proc_other; exact Hj|]. left. rewrite set_proc_same. cbn [t_work]. exists r, []. auto.
  - destruct H as (r & dn & Hf & -> & Ht). destruct rest as [|x rest].
    + injection E as <-. split; [intros j Hj; apply set_proc_other; exact Hj|]. right. split; [apply set_proc_same|]. exists r. cbn [sh_file set_proc x_store].
      fold (text_of r max f0 cmds). rewrite Hf, Ht, app_nil_r. reflexivity.
    + rewrite Hf in E. injection E as <-. cbn [set_file sh_proc sh_file]. split; [intros j Hj; apply set_proc_other; exact Hj|].
      left. rewrite set_proc_same. cbn [t_work]. exists r, (dn ++ firstn (S n) (x :: rest)). rewrite write_at_end.
      split; [reflexivity|]. split; [rewrite app_length; reflexivity|]. rewrite <- app_assoc.
      change (skipn n rest) with (skipn (S n) (x :: rest)). rewrite firstn_skipn. exact Ht.
Qed.

Section Serial.
Context (f0 : file).
Definition done_with (l : list tact) (os : list xop) : Prop :=
  map intended os = t_calls l /\ write_errors os <= hits l /\ entered (f_commands f0) os = t_entered (f_commands f0) l.
Definition t_serial (l : list tact) (s : shared) : Prop :=
  (exists os, done_with l os /\ all_idle s /\ sh_file s = x_run os f0) \/
  (exists os max cmds i, map intended os ++ [SStore max cmds] = t_calls l /\ write_errors os <= hits l /\
     entered (f_commands f0) os ++ cmds = t_entered (f_commands f0) l /\ others_idle i s /\ t_work (x_run os f0) max cmds (sh_proc s i) (sh_file s)).
(** A call ends. *)
Lemma serial_end l a os max cmds r w s : map intended os ++ [SStore max cmds] = t_calls l -> write_errors os <= hits l ->
  entered (f_commands f0) os ++ cmds = t_entered (f_commands f0) l -> all_idle s -> sh_file s = x_store r w max (x_run os f0) cmds ->
  t_calls [a] = [] -> (forall acc, t_entered acc [a] = acc) -> incomplete (XStore r w max cmds) <= hits [a] -> t_serial (l ++ [a]) s.
Proof.
  intros H1 H2 H3 Hi Hf Ha He Hh. left. exists (os ++ [XStore r w max cmds]). split; [split; [|split]|split; [exact Hi|]].
  - rewrite t_calls_app, Ha, app_nil_r, <- H1, map_app. reflexivity.
  - rewrite errors_snoc, hits_app. lia.
  - rewrite entered_snoc, t_entered_app, He, <- H3. reflexivity.
  - rewrite x_run_snoc. exact Hf.
Qed.
Lemma idle_again i s : others_idle i s -> all_idle (set_proc i SIdle s).
Proof. intros H j. destruct (Nat.eq_dec j i) as [->|Hj]; [apply set_proc_same|rewrite set_proc_other by exact Hj; apply H, Hj]. Qed.
(** Nothing ends, nothing begins. *)
Lemma serial_quiet l a s : t_serial l s -> t_calls [a] = [] -> (forall acc, t_entered acc [a] = acc) -> forall s', all_idle s -> all_idle s' -> sh_file s' = sh_file s -> t_serial (l ++ [a]) s'.
Proof.
  intros [(os & (H1 & H2 & H3) & _ & Hf)|(os & max & cmds & i & _ & _ & _ & _ & W)] Ha He s' Hi Hi' Hs.
  - left. exists os. split; [split; [|split]|split; [exact Hi'|congruence]].
    + rewrite t_calls_app, Ha, app_nil_r. exact H1.
    + rewrite hits_app. lia.
    + rewrite t_entered_app, He. exact H3.
  - rewrite (Hi i) in W. destruct W.
Qed.
Lemma work_on l a os max cmds i s : map intended os ++ [SStore max cmds] = t_calls l -> write_errors os <= hits l ->
  entered (f_commands f0) os ++ cmds = t_entered (f_commands f0) l -> t_calls [a] = [] -> (forall acc, t_entered acc [a] = acc) ->
  others_idle i s -> t_work (x_run os f0) max cmds (sh_proc s i) (sh_file s) -> t_serial (l ++ [a]) s.
Proof.
  intros H1 H2 H3 Ha He Ho W. right. exists os, max, cmds, i. rewrite t_calls_app, Ha, app_nil_r, hits_app, t_entered_app, He.
  split; [exact H1|]. split; [lia|]. split; [exact H3|]. split; [exact Ho|exact W].
Qed.
(** A call begins. *)
Lemma serial_begin l a i max cmds p s : t_serial l s -> all_idle s -> stores i max cmds a ->
  (forall f1, sh_file s = f1 -> t_work f1 max cmds p f1) -> t_serial (l ++ [a]) (set_proc i p s).
Proof.
  intros H Hi Ha Hw. destruct H as [(os & (H1 & H2 & H3) & _ & Hf)|(os & m & c & j & _ & _ & _ & _ & W)]; [|rewrite (Hi j) in W; destruct W].
  right. exists os, max, cmds, i. rewrite t_calls_app, hits_app, t_entered_app, H1, <- H3.
  split; [destruct Ha as [-> | ->]; reflexivity|]. split; [lia|]. split; [destruct Ha as [-> | ->]; reflexivity|].
  split; [intros j Hj; rewrite set_proc_other by exact Hj; apply Hi|]. rewrite set_proc_same. cbn [set_proc sh_file]. rewrite Hf. apply Hw. exact Hf.
Qed.
Lemma serial_step l a s s' : t_serial l s -> (t_call a -> all_idle s) -> t_step a s = Some s' -> t_serial (l ++ [a]) s'.
Proof.
  intros H Hc E. destruct a as [[i max cmds|i|i n]|i max cmds|i|i|i|i|i]; cbn [t_step s_step] in E.
  - specialize (Hc Logic.I). rewrite (Hc i) in E. destruct (sh_file s) as [t|] eqn:Ef; injection E as <-.
    + eapply serial_begin; [exact H|exact Hc|left; reflexivity|]. intros f1 <-. rewrite Ef. cbn [t_work]. split; [reflexivity|]. split; [reflexivity|]. split; [reflexivity|]. exists t, t. auto.
    + eapply serial_begin; [exact H|exact Hc|left; reflexivity|]. intros f1 <-. rewrite Ef. cbn [t_work]. split; [reflexivity|]. exists ROk. reflexivity.
  - specialize (Hc Logic.I). rewrite (Hc i) in E. injection E as <-. destruct H as [(os & (H1 & H2 & H3) & _ & Hf)|(os & m & c & j & _ & _ & _ & _ & W)]; [|rewrite (Hc j) in W; destruct W].
    left. exists (os ++ [XClear WOk]). split; [split; [|split]|split; [exact Hc|]].
    + rewrite t_calls_app, map_app, H1. reflexivity.
    + rewrite errors_snoc, hits_app. cbn. lia.
    + rewrite entered_snoc, t_entered_app. reflexivity.
    + rewrite x_run_snoc. reflexivity.
  - destruct H as [(os & _ & Hi & _)|(os & m & c & k & H1 & H2 & H3 & Ho & W)]; [rewrite (Hi i) in E; discriminate|].
    destruct (Nat.eq_dec i k) as [->|Hn]; [|rewrite (Ho i Hn) in E; discriminate].
    destruct (work_go _ _ _ _ n _ _ W E) as (Ho' & [W'|(Hs & r & Hf)]).
    + eapply work_on; try eassumption; try reflexivity. intros j Hj. rewrite Ho' by exact Hj. apply Ho, Hj.
    + eapply serial_end with (r := r) (w := WOk); try eassumption; try reflexivity.
      intros j. destruct (Nat.eq_dec j k) as [->|Hj]; [exact Hs|]. rewrite Ho' by exact Hj. apply Ho, Hj.
  - specialize (Hc Logic.I). rewrite (Hc i) in E. injection E as <-.
    eapply serial_begin; [exact H|exact Hc|right; reflexivity|]. intros f1 <-. cbn [t_work]. split; [reflexivity|]. exists RNoOpen. reflexivity.
  - destruct (sh_proc s i) as [|max cmds got|c|pos rest] eqn:Hp; try discriminate. injection E as <-.
    destruct H as [(os & _ & Hi & _)|(os & m & c & k & H1 & H2 & H3 & Ho & W)]; [rewrite (Hi i) in Hp; discriminate|].
    destruct (Nat.eq_dec i k) as [->|Hn]; [|rewrite (Ho i Hn) in Hp; discriminate]. rewrite Hp in W. destruct W as (Hf & -> & -> & t & rest & Ef & ->).
    eapply work_on; try eassumption; try reflexivity; [intros j Hj; rewrite set_proc_other by exact Hj; apply Ho, Hj|].
    rewrite set_proc_same. cbn [t_work set_proc sh_file]. split; [exact Hf|]. exists (RError (length got)). unfold text_of. rewrite Ef. cbn [x_commands].
    rewrite firstn_app, firstn_all, Nat.sub_diag. cbn [firstn]. rewrite app_nil_r. reflexivity.
  - destruct (sh_proc s i) as [|max cmds got|c|pos rest] eqn:Hp; try discriminate. injection E as <-.
    destruct H as [(os & _ & Hi & _)|(os & m & cs & k & H1 & H2 & H3 & Ho & W)]; [rewrite (Hi i) in Hp; discriminate|].
    destruct (Nat.eq_dec i k) as [->|Hn]; [|rewrite (Ho i Hn) in Hp; discriminate]. rewrite Hp in W. destruct W as (Hf & r & ->).
    eapply serial_end with (r := r) (w := WNoOpen); try eassumption; try reflexivity. apply idle_again, Ho.
  - specialize (Hc Logic.I). rewrite (Hc i) in E. injection E as <-. destruct H as [(os & (H1 & H2 & H3) & _ & Hf)|(os & m & c & j & _ & _ & _ & _ & W)]; [|rewrite (Hc j) in W; destruct W].
    left. exists (os ++ [XClear WNoOpen]). split; [split; [|split]|split; [exact Hc|]].
    + rewrite t_calls_app, map_app, H1. reflexivity.
    + rewrite errors_snoc, hits_app. cbn. lia.
    + rewrite entered_snoc, t_entered_app. cbn. exact H3.
    + rewrite x_run_snoc. exact Hf.
  - destruct (sh_proc s i) as [|max cmds got|c|pos rest] eqn:Hp; try discriminate. injection E as <-.
    destruct H as [(os & _ & Hi & _)|(os & m & cs & k & H1 & H2 & H3 & Ho & W)]; [rewrite (Hi i) in Hp; discriminate|].
    destruct (Nat.eq_dec i k) as [->|Hn]; [|rewrite (Ho i Hn) in Hp; discriminate].
    destruct (work_over _ _ _ _ _ W) as (r & w & Hf). eapply serial_end with (r := r) (w := w); try eassumption; try reflexivity; [apply idle_again, Ho|destruct w; cbn; lia].
  - injection E as <-. destruct H as [(os & D & Hi & Hf)|(os & m & cs & k & H1 & H2 & H3 & Ho & W)].
    + eapply serial_quiet with (s := s); try reflexivity; [left; eauto|exact Hi|apply idle_again; intros j _; apply Hi].
    + destruct (Nat.eq_dec i k) as [->|Hn].
      * destruct (work_over _ _ _ _ _ W) as (r & w & Hf). eapply serial_end with (r := r) (w := w); try eassumption; try reflexivity; [apply idle_again, Ho|destruct w; cbn; lia].
      * eapply work_on with (i := k); try eassumption; try reflexivity; [|rewrite set_proc_other by congruence; exact W].
        intros j Hj. destruct (Nat.eq_dec j i) as [->|Hji]; [apply set_proc_same|rewrite set_proc_other by exact Hji; apply Ho, Hj].
Qed.
Lemma t_serial_run l : forall s, t_one_at_a_time (sh_init f0) l -> t_run l (sh_init f0) = Some s -> t_serial l s.
Proof.
  induction l as [|a l IH] using rev_ind; intros s Hl E.
  - cbn in E. injection E as <-. left. exists []. split; [split; [reflexivity|split; [cbn; lia|reflexivity]]|]. split; [intros i; reflexivity|reflexivity].
  - rewrite t_run_app in E. destruct (t_run l (sh_init f0)) as [s1|] eqn:E1; [|discriminate]. cbn in E. destruct (t_step a s1) as [s2|] eqn:E2; [|discriminate]. injection E as <-.
    apply (serial_step l a s1); [|intros Ha; apply (Hl l a [] s1); [reflexivity|exact Ha|exact E1]|exact E2].
    apply IH; [|reflexivity]. intros l1 b l2 s -> Hb Hr. apply (Hl l1 b (l2 ++ [a]) s); [rewrite <- app_assoc; reflexivity|exact Hb|exact Hr].
Qed.
Lemma t_serial_calls l s : t_one_at_a_time (sh_init f0) l -> t_run l (sh_init f0) = Some s -> all_idle s ->
  exists os, map intended os = t_calls l /\ write_errors os <= hits l /\ entered (f_commands f0) os = t_entered (f_commands f0) l /\ sh_file s = x_run os f0.
Proof.
  intros Hl E Hi. destruct (t_serial_run l s Hl E) as [(os & (H1 & H2 & H3) & _ & Hf)|(os & m & c & k & _ & _ & _ & _ & W)]; [|rewrite (Hi k) in W; destruct W].
  exists os. auto.
Qed.
Lemma t_salvaged l s : t_one_at_a_time (sh_init f0) l -> t_run l (sh_init f0) = Some s -> all_idle s -> Forall op_one_line (t_calls l) ->
  exists k, k <= hits l /\ salvaged k (t_entered (f_commands f0) l) (f_commands (sh_file s)).
Proof.
  intros Hl E Hi Ho. destruct (t_serial_calls l s Hl E Hi) as (os & H1 & H2 & H3 & Hf).
  assert (Hos : Forall xop_one_line os).
  { rewrite <- H1 in Ho. apply Forall_forall. intros o Hin. rewrite Forall_forall in Ho. specialize (Ho (intended o) (in_map _ _ _ Hin)).
    destruct o; [exact Ho|exact Logic.I]. }
  destruct (loaded_salvaged os f0 ROk Hos) as (k & Hk & S). exists k. split; [lia|]. rewrite Hf, <- H3. exact S.
Qed.
End Serial.

(** ** The last one to open the file *)
Definition t_text (max : nat) (cmds : list str) (c : str) : Prop := exists old, Forall one_line old /\ c = put_lines (append_trim max old cmds).
Lemma to_write_text max cmds got : t_text max cmds (to_write max cmds got).
Proof. exists (getlines [] got). split; [apply getlines_one_line; intros []|reflexivity]. Qed.
Lemma whole_one_line s : forall acc, one_line acc -> Forall one_line (whole_lines acc s).
Proof.
  induction s as [|c s IH]; intros acc H; cbn [whole_lines]; [constructor|]. destruct (Ascii.eqb_spec c "010"%char) as [->|Hn].
  - constructor; [exact H|]. apply IH. intros [].
  - apply IH. intros Hin. apply in_app_or in Hin as [Hin|[Hin|[]]]; [exact (H Hin)|congruence].
Qed.
Definition t_storing (max : nat) (cmds : list str) (p : sphase) : Prop :=
  match p with SRead m c _ => m = max /\ c = cmds | SReady c => t_text max cmds c | _ => True end.
Definition t_last (max : nat) (cmds : list str) (p : sphase) (f : file) : Prop :=
  match p with
  | SIdle => exists t, f = Some t /\ t_text max cmds t
  | SRead m c _ => m = max /\ c = cmds
  | SReady c => t_text max cmds c
  | SWrite pos rest => exists done, f = Some done /\ pos = length done /\ t_text max cmds (done ++ rest)
  end.
Lemma t_step_other a s s' i : t_actor a <> i -> t_step a s = Some s' -> sh_proc s' i = sh_proc s i.
Proof.
  intros Ha E. destruct a as [a|j m c|j|j|j|j|j]; cbn [t_actor] in Ha; cbn [t_step] in E; [exact (step_other _ _ _ _ Ha E)|..];
    try (destruct (sh_proc s j); try discriminate); injection E as <-; try reflexivity; apply set_proc_other; congruence.
Qed.
Lemma t_step_quiet a s s' : ~ t_writes s a -> t_step a s = Some s' -> sh_file s' = sh_file s.
Proof.
  intros Hw E. destruct a as [a|j m c|j|j|j|j|j]; cbn [t_step] in E; [exact (step_quiet _ _ _ Hw E)|..];
    try (destruct (sh_proc s j); try discriminate); injection E as <-; reflexivity.
Qed.
Lemma t_go max cmds i n s s' : s_step (GoOn i n) s = Some s' ->
  (t_storing max cmds (sh_proc s i) -> t_storing max cmds (sh_proc s' i)) /\ (t_last max cmds (sh_proc s i) (sh_file s) -> t_last max cmds (sh_proc s' i) (sh_file s')).
Proof.
  intros E. cbn [s_step] in E. destruct (sh_proc s i) as [|m c got|c|pos rest]; [discriminate| | |].
  - destruct (sh_file s) as [f|]; [|discriminate].
    destruct (firstn (S n) _); injection E as <-; rewrite set_proc_same; cbn [t_storing t_last]; (split; intros (-> & ->); [try apply to_write_text; auto|]); try apply to_write_text; auto.
  - injection E as <-. cbn [set_file sh_proc sh_file]. rewrite set_proc_same. cbn [t_storing t_last]. split; [auto|]. intros H. exists []. auto.
  - destruct rest as [|x rest].
    + injection E as <-. rewrite set_proc_same. cbn [t_storing t_last sh_file set_proc]. split; [auto|]. intros (dn & Hf & _ & H). exists dn. rewrite app_nil_r in H. auto.
    + destruct (sh_file s) as [f|]; [|discriminate]. injection E as <-. cbn [set_file sh_proc sh_file]. rewrite set_proc_same. cbn [t_storing t_last]. split; [auto|].
      intros (dn & Hf & -> & H). injection Hf as ->. exists (dn ++ firstn (S n) (x :: rest)). rewrite write_at_end.
      split; [reflexivity|]. split; [rewrite app_length; reflexivity|]. rewrite <- app_assoc.
      change (skipn n rest) with (skipn (S n) (x :: rest)). rewrite firstn_skipn. exact H.
Qed.
Lemma t_read_error max cmds i s s' : t_step (TReadError i) s = Some s' ->
  (t_storing max cmds (sh_proc s i) -> t_storing max cmds (sh_proc s' i)) /\ (t_last max cmds (sh_proc s i) (sh_file s) -> t_last max cmds (sh_proc s' i) (sh_file s')).
Proof.
  intros E. cbn [t_step] in E. destruct (sh_proc s i) as [|m c got|c|pos rest]; try discriminate. injection E as <-. rewrite set_proc_same. cbn [t_storing t_last].
  split; intros (-> & ->); exists (whole_lines [] got); (split; [apply whole_one_line; intros []|reflexivity]).
Qed.
Lemma t_own max cmds i a s s' : (exists n, a = TAct (GoOn i n)) \/ a = TReadError i -> t_step a s = Some s' ->
  (t_storing max cmds (sh_proc s i) -> t_storing max cmds (sh_proc s' i)) /\ (t_last max cmds (sh_proc s i) (sh_file s) -> t_last max cmds (sh_proc s' i) (sh_file s')).
Proof. intros [(n & ->)| ->] E; [exact (t_go max cmds i n s s' E)|exact (t_read_error max cmds i s s' E)]. Qed.
Lemma t_storing_run max cmds i : forall l s s', unhurt i l -> t_storing max cmds (sh_proc s i) -> t_run l s = Some s' -> t_storing max cmds (sh_proc s' i).
Proof.
  induction l as [|a l IH]; intros s s' Hc H E; cbn in E; [injection E as <-; exact H|].
  destruct (t_step a s) as [s1|] eqn:E1; [|discriminate]. apply (IH s1 s'); [intros b Hb; apply Hc; right; exact Hb| |exact E].
  destruct (Nat.eq_dec (t_actor a) i) as [Ha|Ha]; [|rewrite (t_step_other _ _ _ _ Ha E1); exact H].
  exact (proj1 (t_own max cmds i a s s1 (Hc a (or_introl eq_refl) Ha) E1) H).
Qed.
Lemma t_last_run max cmds i : forall l s s', unhurt i l -> t_sole_writer i s l -> t_last max cmds (sh_proc s i) (sh_file s) ->
  t_run l s = Some s' -> t_last max cmds (sh_proc s' i) (sh_file s').
Proof.
  induction l as [|a l IH]; intros s s' Hc Hs H E; cbn in E; [injection E as <-; exact H|].
  destruct (t_step a s) as [s1|] eqn:E1; [|discriminate]. apply (IH s1 s'); [intros b Hb; apply Hc; right; exact Hb| | |exact E].
  - intros l1 b l2 t -> Hr. apply (Hs (a :: l1) b l2 t); [reflexivity|]. cbn. rewrite E1. exact Hr.
  - destruct (Nat.eq_dec (t_actor a) i) as [Ha|Ha]; [exact (proj2 (t_own max cmds i a s s1 (Hc a (or_introl eq_refl) Ha) E1) H)|].
    rewrite (t_step_other _ _ _ _ Ha E1). rewrite (t_step_quiet _ _ _ (fun W => Ha (Hs [] a l s eq_refl eq_refl W)) E1). exact H.
Qed.
Lemma t_last_kept f0 la i max cmds a lb s1 lc s : stores i max cmds a ->
  t_run (la ++ a :: lb) (sh_init f0) = Some s1 -> unhurt i (lb ++ lc) -> before_opening s1 i ->
  t_sole_writer i s1 lc -> t_run lc s1 = Some s -> sh_proc s i = SIdle -> Forall one_line cmds ->
  exists old, f_commands (sh_file s) = lastn max (old ++ cmds).
Proof.
  intros Ha E Hc Hb Hs E' Hi Ho. rewrite t_run_app in E. destruct (t_run la (sh_init f0)) as [sa|]; [|discriminate]. cbn [t_run] in E.
  destruct (t_step a sa) as [sb|] eqn:Eb; [|discriminate].
  assert (H0 : t_storing max cmds (sh_proc sb i)).
  { destruct Ha as [-> | ->]; cbn [t_step s_step] in Eb; destruct (sh_proc sa i); try discriminate; [destruct (sh_file sa)|]; injection Eb as <-; rewrite set_proc_same; cbn [t_storing]; auto using to_write_text. }
  assert (H1 : t_storing max cmds (sh_proc s1 i)) by (apply (t_storing_run max cmds i lb sb s1); [intros b Hin; apply Hc, in_or_app; left; exact Hin|exact H0|exact E]).
  assert (H2 : t_last max cmds (sh_proc s i) (sh_file s)).
  { apply (t_last_run max cmds i lc s1 s); [intros b Hin; apply Hc, in_or_app; right; exact Hin|exact Hs| |exact E'].
    unfold before_opening in Hb. destruct (sh_proc s1 i); [destruct Hb|exact H1|exact H1|destruct Hb]. }
  rewrite Hi in H2. destruct H2 as (t & -> & old & Hold & ->). exists old. cbn [f_commands].
  rewrite append_trim_lastn. apply getlines_put, Forall_lastn, Forall_app. split; [exact Hold|exact Ho].
Qed.

(** ** Where the bytes come from *)
Definition t_from_call (l : list tact) (c : str) : Prop := exists i max cmds a old, In a l /\ stores i max cmds a /\ c = put_lines (lastn max (old ++ cmds)).
Definition t_proc_from (l : list tact) (p : sphase) : Prop :=
  match p with
  | SIdle => True
  | SRead max cmds _ => exists i a, In a l /\ stores i max cmds a
  | SReady c => t_from_call l c
  | SWrite pos rest => exists c, t_from_call l c /\ rest = skipn pos c
  end.
Definition t_byte_from (f0 : file) (l : list tact) (k : nat) (b : ascii) : Prop :=
  b = "000"%char \/ (exists f, f0 = Some f /\ nth_error f k = Some b) \/ t_byte l k b.
Definition t_all_from (f0 : file) (l : list tact) (s : shared) : Prop :=
  (forall i, t_proc_from l (sh_proc s i)) /\ (forall f k b, sh_file s = Some f -> nth_error f k = Some b -> t_byte_from f0 l k b).
Lemma t_from_more l a c : t_from_call l c -> t_from_call (l ++ [a]) c.
Proof. intros (i & m & cs & x & o & H & E). exists i, m, cs, x, o. split; [apply in_or_app; auto|exact E]. Qed.
Lemma t_proc_more l a p : t_proc_from l p -> t_proc_from (l ++ [a]) p.
Proof.
  destruct p; cbn; auto using t_from_more.
  - intros (i & x & H & E). exists i, x. split; [apply in_or_app; auto|exact E].
  - intros (c & H & E). exists c. auto using t_from_more.
Qed.
Lemma t_byte_more f0 l a k b : t_byte_from f0 l k b -> t_byte_from f0 (l ++ [a]) k b.
Proof. intros [H|[H|(i & m & cs & x & o & H & E)]]; [left|right; left|right; right]; auto. exists i, m, cs, x, o. split; [apply in_or_app; auto|exact E]. Qed.
Lemma t_from_text l i max cmds a old : In a l -> stores i max cmds a -> t_from_call l (put_lines (append_trim max old cmds)).
Proof. intros H Ha. exists i, max, cmds, a, old. split; [exact H|]. split; [exact Ha|]. rewrite append_trim_lastn. reflexivity. Qed.
Lemma t_from_step f0 l a s s' : t_all_from f0 l s -> t_step a s = Some s' -> t_all_from f0 (l ++ [a]) s'.
Proof.
  intros (Hp & Hf) H.
  assert (Hset : forall i p s0, sh_proc s0 = sh_proc s -> t_proc_from (l ++ [a]) p -> forall j, t_proc_from (l ++ [a]) (sh_proc (set_proc i p s0) j)).
  { intros i p s0 E2 Hq j. cbn. destruct (Nat.eqb j i); [exact Hq|]. rewrite E2. apply t_proc_more, Hp. }
  assert (Hsame : forall f k b, sh_file s = Some f -> nth_error f k = Some b -> t_byte_from f0 (l ++ [a]) k b) by (intros; eapply t_byte_more, Hf; eassumption).
  assert (Hin : In a (l ++ [a])) by (apply in_or_app; right; left; reflexivity).
  assert (Hquiet : forall i p, t_proc_from (l ++ [a]) p -> t_all_from f0 (l ++ [a]) (set_proc i p s)) by (intros i p Hq; split; [apply Hset; auto|exact Hsame]).
  destruct a as [[i max cmds|i|i n]|i max cmds|i|i|i|i|i]; cbn [t_step s_step] in H.
  - destruct (sh_proc s i) eqn:Ei; try discriminate. destruct (sh_file s) as [f|] eqn:Ef; injection H as <-; apply Hquiet.
    + exists i, (TAct (CallStore i max cmds)). split; [exact Hin|left; reflexivity].
    + apply (t_from_text _ i max cmds (TAct (CallStore i max cmds))); [exact Hin|left; reflexivity].
  - destruct (sh_proc s i) eqn:Ei; try discriminate. injection H as <-. split; [intros j; apply t_proc_more, Hp|]. intros f k b Hk. injection Hk as <-. destruct k; discriminate.
  - pose proof (Hp i) as Hi. destruct (sh_proc s i) as [|max cmds got|c|pos rest] eqn:Ei; try discriminate.
    + destruct (sh_file s) as [f|] eqn:Ef; [|discriminate]. destruct Hi as (i0 & x & Hx & Hi).
      destruct (firstn (S n) (skipn (length got) f)) eqn:Eg; injection H as <-; apply Hquiet.
      * apply (t_from_text _ i0 max cmds x); [apply in_or_app; left; exact Hx|exact Hi].
      * exists i0, x. split; [apply in_or_app; left; exact Hx|exact Hi].
    + injection H as <-. split.
      * apply (Hset i (SWrite 0 c) s eq_refl). exists c. split; [apply t_from_more, Hi|reflexivity].
      * intros f k b Hk. injection Hk as <-. destruct k; discriminate.
    + destruct rest as [|x rest]; [injection H as <-; apply Hquiet; exact Logic.I|].
      destruct (sh_file s) as [f|] eqn:Ef; [|discriminate]. injection H as <-. destruct Hi as (c & Hc & Er). split.
      * refine (Hset i _ s eq_refl _). exists c. split; [apply t_from_more, Hc|]. change (skipn (S n) (x :: rest) = skipn (pos + length (firstn (S n) (x :: rest))) c). rewrite Er, skipn_skipn'.
        destruct (Nat.le_gt_cases (S n) (length (skipn pos c))) as [L|L].
        -- f_equal. rewrite firstn_length. lia.
        -- rewrite !skipn_all2; [reflexivity| |]; rewrite ?firstn_length, ?skipn_length in *; lia.
      * intros f1 k b Hk Hb. injection Hk as <-. apply nth_write_at in Hb. destruct Hb as [Hb|[(L & Hb)|Hb]]; [left; exact Hb| |eapply Hsame; [reflexivity|exact Hb]].
        right. right. destruct Hc as (i0 & m & cs & y & o & Hy & Hst & ->). exists i0, m, cs, y, o. split; [apply in_or_app; auto|]. split; [exact Hst|]. rewrite <- put_lines_flat.
        change (nth_error (firstn (S n) (x :: rest)) (k - pos) = Some b) in Hb. rewrite Er in Hb. assert (Hb' : nth_error (skipn pos (put_lines (lastn m (o ++ cs)))) (k - pos) = Some b).
        { rewrite <- (firstn_skipn (S n) (skipn pos _)). rewrite nth_error_app1; [exact Hb|]. apply nth_error_Some. rewrite Hb. discriminate. }
        rewrite nth_error_skipn in Hb'. rewrite <- Hb'. f_equal. lia.
  - destruct (sh_proc s i) eqn:Ei; try discriminate. injection H as <-. apply Hquiet. apply (t_from_text _ i max cmds (TNoRead i max cmds)); [exact Hin|right; reflexivity].
  - pose proof (Hp i) as Hi. destruct (sh_proc s i) as [|max cmds got|c|pos rest] eqn:Ei; try discriminate. injection H as <-. apply Hquiet. destruct Hi as (i0 & x & Hx & Hi).
    apply (t_from_text _ i0 max cmds x); [apply in_or_app; left; exact Hx|exact Hi].
  - destruct (sh_proc s i) eqn:Ei; try discriminate. injection H as <-. apply Hquiet. exact Logic.I.
  - destruct (sh_proc s i) eqn:Ei; try discriminate. injection H as <-. split; [intros j; apply t_proc_more, Hp|exact Hsame].
  - destruct (sh_proc s i) eqn:Ei; try discriminate. injection H as <-. apply Hquiet. exact Logic.I.
  - injection H as <-. apply Hquiet. exact Logic.I.
Qed.
Lemma t_from_run f0 l' : forall l s s', t_all_from f0 l s -> t_run l' s = Some s' -> t_all_from f0 (l ++ l') s'.
Proof.
  induction l' as [|a l' IH]; intros l s s' H Hr; [injection Hr as <-; rewrite app_nil_r; exact H|]. cbn [t_run] in Hr. destruct (t_step a s) as [s1|] eqn:E; [|discriminate].
  replace (l ++ a :: l') with ((l ++ [a]) ++ l') by (rewrite <- app_assoc; reflexivity). eapply IH; [|exact Hr]. eapply t_from_step; eassumption.
Qed.
Lemma t_bytes_from f0 l s f k b : t_run l (sh_init f0) = Some s -> sh_file s = Some f -> nth_error f k = Some b ->
  b = "000"%char \/ (exists f1, f0 = Some f1 /\ nth_error f1 k = Some b) \/ t_byte l k b.
Proof.
  intros Hr Hf Hb. destruct (t_from_run f0 l [] (sh_init f0) s) as (_ & H); [|exact Hr|exact (H f k b Hf Hb)].
  split; [intros i; exact Logic.I|]. intros f1 k1 b1 H1 H2. right. left. cbn in H1. eauto.
Qed.
