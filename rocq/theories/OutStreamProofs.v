(** * Proofs about the global output stream *)

From Verif Require Import Base OutStreamModel OutStreamSpec.
Open Scope nat_scope.
Open Scope list_scope.

Lemma upd_same m i o : upd_str m i o i = o.
Proof. unfold upd_str. rewrite Nat.eqb_refl. reflexivity. Qed.
Lemma upd_other m i j o : j <> i -> upd_str m i o j = m j.
Proof. intros H. unfold upd_str. destruct (Nat.eqb_spec j i); [contradiction|reflexivity]. Qed.

(** Each registered stream is changed once, the others not. *)
Lemma each_spec f l : NoDup l -> forall m, (forall i, In i l -> m i <> None) ->
  exists m', each f l m = Some m' /\ forall i, m' i = if in_dec Nat.eq_dec i l then option_map f (m i) else m i.
Proof.
  induction 1 as [|i l Hi Hl IH]; intros m Hm; cbn [each].
  - exists m. split; [reflexivity|]. intros j. reflexivity.
  - destruct (m i) as [o|] eqn:Hmi; [|exfalso; apply (Hm i); [left; reflexivity|exact Hmi]].
    destruct (IH (upd_str m i (Some (f o)))) as (m' & -> & Hm').
    + intros j Hj. rewrite upd_other; [apply Hm; right; exact Hj|]. intros ->. contradiction.
    + exists m'. split; [reflexivity|]. intros j. rewrite Hm'. destruct (in_dec Nat.eq_dec j l) as [Hj|Hj].
      * rewrite upd_other by (intros ->; contradiction). destruct (in_dec Nat.eq_dec j (i :: l)) as [|Hn]; [reflexivity|].
        exfalso. apply Hn. right. exact Hj.
      * destruct (in_dec Nat.eq_dec j (i :: l)) as [[->|Hjl]|Hn]; [|contradiction|].
        -- rewrite upd_same, Hmi. reflexivity.
        -- rewrite upd_other; [reflexivity|]. intros ->. apply Hn. left. reflexivity.
Qed.

(** The state matches the sets of open sessions and existing streams. *)
Definition matches (y : osys) (opens alive : list nat) : Prop :=
  NoDup (o_reg y) /\ (forall i, In i (o_reg y) <-> In i opens) /\ (forall i, In i opens -> In i alive) /\
  (forall i, o_str y i <> None <-> In i alive).

Lemma all_spec f y opens alive : matches y opens alive ->
  exists y', all_streams f y = Some y' /\ matches y' opens alive /\
    forall i, o_str y' i = if in_dec Nat.eq_dec i opens then option_map f (o_str y i) else o_str y i.
Proof.
  intros (Hn & Hr & Ho & Ha). unfold all_streams. destruct (each_spec f (o_reg y) Hn (o_str y)) as (m & -> & Hm).
  { intros i Hi. apply Ha, Ho, Hr, Hi. }
  eexists. split; [reflexivity|]. split.
  - split; [exact Hn|]. split; [exact Hr|]. split; [exact Ho|]. intros i. cbn [o_str]. rewrite Hm, <- Ha.
    destruct (in_dec Nat.eq_dec i (o_reg y)), (o_str y i); cbn; split; congruence.
  - intros i. cbn [o_str]. rewrite Hm. destruct (in_dec Nat.eq_dec i (o_reg y)) as [H|H], (in_dec Nat.eq_dec i opens) as [H'|H']; try reflexivity; exfalso; apply Hr in H || apply H, Hr, H'; contradiction.
Qed.

(** Every step is defined and keeps the relation. *)
Lemma step_ok y opens alive o os : matches y opens alive -> proper opens alive (o :: os) ->
  exists y' opens' alive', o_step y o = Some y' /\ matches y' opens' alive' /\ proper opens' alive' os /\
    (forall i, In i opens' <-> match o with Open j => j = i \/ In i opens | Close j => j <> i /\ In i opens | _ => In i opens end) /\
    (forall i, In i alive -> (forall j, o <> Destroy j) -> In i alive').
Proof.
  intros Hm Hp. destruct Hm as (Hn & Hr & Ho & Ha). destruct o as [j|j|s|c|j|j|j s|j g w fl lf]; cbn [proper] in Hp; cbn [o_step].
  - destruct Hp as (H1 & H2 & H3). exists (register j y), (j :: opens), alive. split; [reflexivity|]. split; [|split; [exact H3|]; split; [intros i; cbn; tauto|intros; assumption]].
    split; [|split; [|split]]; cbn [register o_reg o_str].
    + apply Permutation_NoDup with (l := j :: o_reg y); [apply Permutation_cons_append|]. constructor; [rewrite Hr; exact H1|exact Hn].
    + intros i. rewrite in_app_iff. cbn. rewrite Hr. tauto.
    + intros i [<-|Hi]; [exact H2|apply Ho, Hi].
    + exact Ha.
  - destruct Hp as (H1 & H2). exists (unregister j y), (remove Nat.eq_dec j opens), alive. split; [reflexivity|].
    assert (Hiff : forall i, In i (remove Nat.eq_dec j opens) <-> j <> i /\ In i opens).
    { intros i. split; intros H. - apply in_remove in H. split; [intros ->; tauto|tauto]. - apply in_in_remove; [intros ->; tauto|tauto]. }
    split; [|split; [exact H2|]; split; [exact Hiff|intros; assumption]].
    split; [|split; [|split]]; cbn [unregister o_reg o_str].
    + apply NoDup_filter, Hn.
    + intros i. rewrite filter_In, Hr, Hiff. destruct (Nat.eqb_spec i j) as [->|]; cbn; split; intros H; try tauto; [destruct H; discriminate|split; [congruence|tauto]].
    + intros i Hi. apply Hiff in Hi. apply Ho, Hi.
    + exact Ha.
  - destruct (all_spec (buf_sputn s) y opens alive) as (y' & E & Hm' & _); [repeat split; assumption || apply Hr || apply Ha|].
    exists y', opens, alive. split; [exact E|]. split; [exact Hm'|]. split; [exact Hp|]. split; [tauto|intros; assumption].
  - destruct (all_spec (put_char c) y opens alive) as (y' & E & Hm' & _); [repeat split; assumption || apply Hr || apply Ha|].
    exists y', opens, alive. split; [exact E|]. split; [exact Hm'|]. split; [exact Hp|]. split; [tauto|intros; assumption].
  - destruct Hp as (H1 & H2). eexists _, opens, (j :: alive). split; [reflexivity|]. split; [|split; [exact H2|]; split; [tauto|intros; right; assumption]].
    split; [exact Hn|]. split; [exact Hr|]. split; [intros i Hi; right; apply Ho, Hi|]. intros i. cbn [o_str]. unfold upd_str.
    destruct (Nat.eqb_spec i j) as [->|Hne]; cbn; [split; [tauto|discriminate]|]. rewrite Ha. split; [tauto|]. intros [->|]; [contradiction|assumption].
  - destruct Hp as (H1 & H2 & H3). eexists _, opens, (remove Nat.eq_dec j alive). split; [reflexivity|].
    split; [|split; [exact H3|]; split; [tauto|intros i Hi Hd; exfalso; exact (Hd j eq_refl)]].
    split; [exact Hn|]. split; [exact Hr|]. split.
    + intros i Hi. apply in_in_remove; [intros ->; contradiction|apply Ho, Hi].
    + intros i. cbn [o_str]. unfold upd_str. destruct (Nat.eqb_spec i j) as [->|Hne].
      * split; [congruence|]. intros H. apply in_remove in H. tauto.
      * rewrite Ha. split; [intros H; apply in_in_remove; assumption|]. intros H. apply in_remove in H. tauto.
  - destruct Hp as (H1 & H2). unfold on_str. destruct (o_str y j) as [o|] eqn:Hj; [|exfalso; apply Ha in H1; contradiction].
    eexists _, opens, alive. split; [reflexivity|]. split; [|split; [exact H2|]; split; [tauto|intros; assumption]].
    split; [exact Hn|]. split; [exact Hr|]. split; [exact Ho|]. intros i. cbn [o_str]. unfold upd_str.
    destruct (Nat.eqb_spec i j) as [->|]; [|apply Ha]. split; [intros; assumption|discriminate].
  - destruct Hp as (H1 & H2). unfold on_str. destruct (o_str y j) as [o|] eqn:Hj; [|exfalso; apply Ha in H1; contradiction].
    eexists _, opens, alive. split; [reflexivity|]. split; [|split; [exact H2|]; split; [tauto|intros; assumption]].
    split; [exact Hn|]. split; [exact Hr|]. split; [exact Ho|]. intros i. cbn [o_str]. unfold upd_str.
    destruct (Nat.eqb_spec i j) as [->|]; [|apply Ha]. split; [intros; assumption|discriminate].
Qed.

Lemma run_defined os : forall y opens alive, matches y opens alive -> proper opens alive os -> o_run y os <> None.
Proof.
  induction os as [|o os IH]; intros y opens alive Hm Hp; cbn [o_run]; [discriminate|].
  destruct (step_ok y opens alive o os Hm Hp) as (y' & op' & al' & -> & Hm' & Hp' & _). exact (IH y' op' al' Hm' Hp').
Qed.

Lemma matches_init : matches o_init [] [].
Proof. split; [constructor|]. split; [cbn; tauto|]. split; [cbn; tauto|]. cbn. tauto. Qed.

Definition plain_str (o : ostr) : Prop := os_good o = true /\ os_width o <= 1.
Definition lasts (i : nat) (os : list oop) : Prop := ~ In (Destroy i) os /\ ~ In (Create i) os.

Lemma put_plain c o : plain_str o -> put_char c o = mkOs (os_text o ++ [c]) true 0 (os_fill o) (os_left o).
Proof.
  intros (Hg & Hw). unfold put_char. rewrite Hg. replace (os_width o - 1) with 0 by lia. cbn. destruct (os_left o); reflexivity.
Qed.

Lemma run_told i os : forall y opens alive o,
  matches y opens alive -> proper opens alive os -> o_str y i = Some o -> lasts i os ->
  Forall no_char os \/ (plain_str o /\ Forall plain_op os) ->
  exists y' o', o_run y os = Some y' /\ o_str y' i = Some o' /\
    os_text o' = os_text o ++ told i (if in_dec Nat.eq_dec i opens then true else false) os.
Proof.
  induction os as [|op os IH]; intros y opens alive o Hm Hp Hi Hl Hc.
  { exists y, o. split; [reflexivity|]. split; [exact Hi|]. cbn. rewrite app_nil_r. reflexivity. }
  destruct (step_ok y opens alive op os Hm Hp) as (y1 & op1 & al1 & E1 & Hm1 & Hp1 & Hop1 & _).
  assert (Hl1 : lasts i os) by (destruct Hl as (H1 & H2); split; intros H; [apply H1|apply H2]; right; exact H).
  assert (Hnext : forall o1, o_str y1 i = Some o1 -> (plain_op op -> plain_str o -> plain_str o1) ->
    exists y' o', o_run y (op :: os) = Some y' /\ o_str y' i = Some o' /\
      os_text o' = os_text o1 ++ told i (if in_dec Nat.eq_dec i op1 then true else false) os).
  { intros o1 H1 Hpl. cbn [o_run]. rewrite E1. apply (IH y1 op1 al1 o1 Hm1 Hp1 H1 Hl1).
    destruct Hc as [Hc|(Hc1 & Hc2)]; [left; inversion Hc; assumption|right]. inversion Hc2; subst. split; [apply Hpl; assumption|assumption]. }
  clear IH. set (b := if in_dec Nat.eq_dec i opens then true else false).
  assert (Hsame : (forall j, op <> Open j) -> (forall j, op <> Close j) -> (if in_dec Nat.eq_dec i op1 then true else false) = b).
  { intros Ha Hb. unfold b. specialize (Hop1 i). destruct (in_dec Nat.eq_dec i op1) as [H|H], (in_dec Nat.eq_dec i opens) as [H'|H']; try reflexivity; exfalso; destruct op; try (eapply Ha; reflexivity); try (eapply Hb; reflexivity); tauto. }
  destruct op as [j|j|s|c|j|j|j s|j g w fl lf]; cbn [o_step] in E1.
  - injection E1 as <-. destruct (Hnext o Hi (fun _ H => H)) as (y' & o' & R & S & T). exists y', o'. split; [exact R|]. split; [exact S|]. rewrite T. cbn [told]. f_equal. f_equal.
    specialize (Hop1 i). unfold b. destruct (in_dec Nat.eq_dec i op1), (Nat.eqb_spec j i), (in_dec Nat.eq_dec i opens); try reflexivity; exfalso; tauto.
  - injection E1 as <-. destruct (Hnext o Hi (fun _ H => H)) as (y' & o' & R & S & T). exists y', o'. split; [exact R|]. split; [exact S|]. rewrite T. cbn [told]. f_equal. f_equal.
    specialize (Hop1 i). unfold b. destruct (in_dec Nat.eq_dec i op1), (Nat.eqb_spec j i), (in_dec Nat.eq_dec i opens); try reflexivity; exfalso; tauto.
  - unfold xsputn in E1. destruct (all_spec (buf_sputn s) y opens alive Hm) as (y2 & E2 & _ & H2). rewrite E2 in E1. injection E1 as ->.
    specialize (H2 i). rewrite Hi in H2. rewrite Hsame in Hnext by discriminate. unfold b in *. destruct (in_dec Nat.eq_dec i opens).
    + destruct (Hnext _ H2 (fun _ H => H)) as (y' & o' & R & S & T). exists y', o'. split; [exact R|]. split; [exact S|]. rewrite T. cbn [told buf_sputn os_text]. rewrite app_assoc. reflexivity.
    + destruct (Hnext _ H2 (fun _ H => H)) as (y' & o' & R & S & T). exists y', o'. split; [exact R|]. split; [exact S|]. rewrite T. reflexivity.
  - unfold overflow in E1. destruct (all_spec (put_char c) y opens alive Hm) as (y2 & E2 & _ & H2). rewrite E2 in E1. injection E1 as ->.
    destruct Hc as [Hc|(Hc & _)]; [inversion Hc; contradiction|].
    specialize (H2 i). rewrite Hi in H2. rewrite Hsame in Hnext by discriminate. unfold b in *. destruct (in_dec Nat.eq_dec i opens).
    + cbn [option_map] in H2. rewrite (put_plain c o Hc) in H2.
      destruct (Hnext _ H2) as (y' & o' & R & S & T); [intros _ _; split; cbn; [reflexivity|lia]|]. exists y', o'. split; [exact R|]. split; [exact S|]. rewrite T. cbn [told os_text app]. rewrite <- app_assoc. reflexivity.
    + destruct (Hnext _ H2 (fun _ H => H)) as (y' & o' & R & S & T). exists y', o'. split; [exact R|]. split; [exact S|]. rewrite T. reflexivity.
  - injection E1 as <-. cbn [o_str] in Hnext. destruct (Nat.eq_dec i j) as [->|Hne]; [exfalso; apply (proj2 Hl); left; reflexivity|].
    rewrite upd_other in Hnext by exact Hne. rewrite Hsame in Hnext by discriminate. destruct (Hnext o Hi (fun _ H => H)) as (y' & o' & R & S & T). exists y', o'. split; [exact R|]. split; [exact S|]. rewrite T. reflexivity.
  - injection E1 as <-. cbn [o_str] in Hnext. destruct (Nat.eq_dec i j) as [->|Hne]; [exfalso; apply (proj1 Hl); left; reflexivity|].
    rewrite upd_other in Hnext by exact Hne. rewrite Hsame in Hnext by discriminate. destruct (Hnext o Hi (fun _ H => H)) as (y' & o' & R & S & T). exists y', o'. split; [exact R|]. split; [exact S|]. rewrite T. reflexivity.
  - unfold on_str in E1. destruct (o_str y j) as [oj|] eqn:Hj; [|discriminate]. injection E1 as <-. cbn [o_str] in Hnext. rewrite Hsame in Hnext by discriminate. cbn [told].
    destruct (Nat.eqb_spec j i) as [->|Hne].
    + rewrite upd_same in Hnext. rewrite Hi in Hj. injection Hj as <-. destruct (Hnext _ eq_refl (fun _ H => H)) as (y' & o' & R & S & T). exists y', o'. split; [exact R|]. split; [exact S|]. rewrite T. cbn [buf_sputn os_text]. rewrite app_assoc. reflexivity.
    + rewrite upd_other in Hnext by congruence. destruct (Hnext o Hi (fun _ H => H)) as (y' & o' & R & S & T). exists y', o'. split; [exact R|]. split; [exact S|]. rewrite T. reflexivity.
  - unfold on_str in E1. destruct (o_str y j) as [oj|] eqn:Hj; [|discriminate]. injection E1 as <-. cbn [o_str] in Hnext. rewrite Hsame in Hnext by discriminate. cbn [told].
    destruct (Nat.eqb_spec j i) as [->|Hne].
    + rewrite upd_same in Hnext. rewrite Hi in Hj. injection Hj as <-. destruct (Hnext _ eq_refl (fun H _ => H)) as (y' & o' & R & S & T). exists y', o'. split; [exact R|]. split; [exact S|]. rewrite T. reflexivity.
    + rewrite upd_other in Hnext by congruence. destruct (Hnext o Hi (fun _ H => H)) as (y' & o' & R & S & T). exists y', o'. split; [exact R|]. split; [exact S|]. rewrite T. reflexivity.
Qed.

(** The streams before [i] is created. *)
Lemma run_app a : forall y b, o_run y (a ++ b) = match o_run y a with Some y' => o_run y' b | None => None end.
Proof. induction a as [|o a IH]; intros y b; cbn [o_run app]; [reflexivity|]. destruct (o_step y o); [apply IH|reflexivity]. Qed.
Lemma reach_ok a : forall y opens alive b, matches y opens alive -> proper opens alive (a ++ b) ->
  exists y' opens' alive', o_run y a = Some y' /\ matches y' opens' alive' /\ proper opens' alive' b.
Proof.
  induction a as [|o a IH]; intros y opens alive b Hm Hp.
  - exists y, opens, alive. split; [reflexivity|]. split; assumption.
  - cbn [app] in Hp. destruct (step_ok y opens alive o (a ++ b) Hm Hp) as (y1 & op1 & al1 & E & Hm1 & Hp1 & _). cbn [o_run]. rewrite E. exact (IH y1 op1 al1 b Hm1 Hp1).
Qed.
Lemma broadcast a i b : proper [] [] (a ++ Create i :: b) -> lasts i b -> Forall no_char b \/ Forall plain_op b ->
  exists y o, o_run o_init (a ++ Create i :: b) = Some y /\ o_str y i = Some o /\ os_text o = told i false b.
Proof.
  intros Hp Hl Hc. destruct (reach_ok a _ _ _ _ matches_init Hp) as (y & op & al & E & Hm & Hp1). rewrite run_app, E.
  destruct (step_ok y op al (Create i) b Hm Hp1) as (y1 & op1 & al1 & E1 & Hm1 & Hp2 & Hop & _). cbn [o_run]. rewrite E1.
  cbn [o_step] in E1. injection E1 as <-.
  assert (Hni : ~ In i op). { destruct Hp1 as (H1 & _). intros H. apply H1. exact (proj1 (proj2 (proj2 Hm)) i H). }
  destruct (run_told i b _ op1 al1 (mkOs [] true 0 " "%char false) Hm1 Hp2) as (y' & o' & R & Q & T).
  - cbn [o_str]. apply upd_same.
  - exact Hl.
  - destruct Hc as [Hc|Hc]; [left; exact Hc|right; split; [split; cbn; [reflexivity|lia]|exact Hc]].
  - exists y', o'. split; [exact R|]. split; [exact Q|]. rewrite T. cbn [os_text app]. specialize (Hop i).
    destruct (in_dec Nat.eq_dec i op1) as [H|H]; [exfalso; apply Hni, Hop, H|reflexivity].
Qed.

(** With any formatting *)
Definition fmt_of (o : ostr) : fmt := mkFmt (os_good o) (os_width o) (os_fill o) (os_left o).
Lemma run_told_as i os : forall y opens alive o,
  matches y opens alive -> proper opens alive os -> o_str y i = Some o -> lasts i os ->
  exists y' o', o_run y os = Some y' /\ o_str y' i = Some o' /\
    os_text o' = os_text o ++ told_as i (if in_dec Nat.eq_dec i opens then true else false) (fmt_of o) os.
Proof.
  induction os as [|op os IH]; intros y opens alive o Hm Hp Hi Hl.
  { exists y, o. split; [reflexivity|]. split; [exact Hi|]. cbn. rewrite app_nil_r. reflexivity. }
  destruct (step_ok y opens alive op os Hm Hp) as (y1 & op1 & al1 & E1 & Hm1 & Hp1 & Hop1 & _).
  assert (Hl1 : lasts i os) by (destruct Hl as (H1 & H2); split; intros H; [apply H1|apply H2]; right; exact H).
  assert (Hnext : forall o1, o_str y1 i = Some o1 ->
    os_text o1 ++ told_as i (if in_dec Nat.eq_dec i op1 then true else false) (fmt_of o1) os = os_text o ++ told_as i (if in_dec Nat.eq_dec i opens then true else false) (fmt_of o) (op :: os) ->
    exists y' o', o_run y (op :: os) = Some y' /\ o_str y' i = Some o' /\
      os_text o' = os_text o ++ told_as i (if in_dec Nat.eq_dec i opens then true else false) (fmt_of o) (op :: os)).
  { intros o1 H1 <-. cbn [o_run]. rewrite E1. exact (IH y1 op1 al1 o1 Hm1 Hp1 H1 Hl1). }
  clear IH. set (b := if in_dec Nat.eq_dec i opens then true else false) in *.
  assert (Hsame : (forall j, op <> Open j) -> (forall j, op <> Close j) -> (if in_dec Nat.eq_dec i op1 then true else false) = b).
  { intros Ha Hb. unfold b. specialize (Hop1 i). destruct (in_dec Nat.eq_dec i op1) as [H|H], (in_dec Nat.eq_dec i opens) as [H'|H']; try reflexivity; exfalso; destruct op; try (eapply Ha; reflexivity); try (eapply Hb; reflexivity); tauto. }
  destruct op as [j|j|s|c|j|j|j s|j g w fl lf]; cbn [o_step] in E1.
  - injection E1 as <-. apply (Hnext o Hi). cbn [told_as]. f_equal. f_equal.
    specialize (Hop1 i). unfold b. destruct (in_dec Nat.eq_dec i op1), (Nat.eqb_spec j i), (in_dec Nat.eq_dec i opens); try reflexivity; exfalso; tauto.
  - injection E1 as <-. apply (Hnext o Hi). cbn [told_as]. f_equal. f_equal.
    specialize (Hop1 i). unfold b. destruct (in_dec Nat.eq_dec i op1), (Nat.eqb_spec j i), (in_dec Nat.eq_dec i opens); try reflexivity; exfalso; tauto.
  - unfold xsputn in E1. destruct (all_spec (buf_sputn s) y opens alive Hm) as (y2 & E2 & _ & H2). rewrite E2 in E1. injection E1 as ->.
    specialize (H2 i). rewrite Hi in H2. rewrite Hsame in Hnext by discriminate. unfold b in *. destruct (in_dec Nat.eq_dec i opens); apply (Hnext _ H2); cbn [told_as buf_sputn os_text]; [rewrite <- app_assoc|]; reflexivity.
  - unfold overflow in E1. destruct (all_spec (put_char c) y opens alive Hm) as (y2 & E2 & _ & H2). rewrite E2 in E1. injection E1 as ->.
    specialize (H2 i). rewrite Hi in H2. rewrite Hsame in Hnext by discriminate. unfold b in *. destruct (in_dec Nat.eq_dec i opens); apply (Hnext _ H2); cbn [told_as andb]; [|reflexivity].
    unfold put_char. cbn [fmt_of f_good]. destruct (os_good o) eqn:Eg; cbn [os_text].
    + rewrite <- app_assoc. unfold padded. cbn [fmt_of f_fill f_width f_left os_good os_width os_fill os_left]. destruct (os_left o); reflexivity.
    + unfold fmt_of at 1. rewrite Eg. unfold fmt_of. rewrite Eg. reflexivity.
  - injection E1 as <-. cbn [o_str] in Hnext. destruct (Nat.eq_dec i j) as [->|Hne]; [exfalso; apply (proj2 Hl); left; reflexivity|].
    rewrite upd_other in Hnext by exact Hne. rewrite Hsame in Hnext by discriminate. apply (Hnext o Hi). reflexivity.
  - injection E1 as <-. cbn [o_str] in Hnext. destruct (Nat.eq_dec i j) as [->|Hne]; [exfalso; apply (proj1 Hl); left; reflexivity|].
    rewrite upd_other in Hnext by exact Hne. rewrite Hsame in Hnext by discriminate. apply (Hnext o Hi). reflexivity.
  - unfold on_str in E1. destruct (o_str y j) as [oj|] eqn:Hj; [|discriminate]. injection E1 as <-. cbn [o_str] in Hnext. rewrite Hsame in Hnext by discriminate. cbn [told_as] in Hnext |- *.
    destruct (Nat.eqb_spec j i) as [->|Hne].
    + rewrite upd_same in Hnext. rewrite Hi in Hj. injection Hj as <-. apply (Hnext _ eq_refl). cbn [buf_sputn os_text]. rewrite <- app_assoc. reflexivity.
    + rewrite upd_other in Hnext by congruence. apply (Hnext o Hi). reflexivity.
  - unfold on_str in E1. destruct (o_str y j) as [oj|] eqn:Hj; [|discriminate]. injection E1 as <-. cbn [o_str] in Hnext. rewrite Hsame in Hnext by discriminate. cbn [told_as] in Hnext |- *.
    destruct (Nat.eqb_spec j i) as [->|Hne].
    + rewrite upd_same in Hnext. rewrite Hi in Hj. injection Hj as <-. apply (Hnext _ eq_refl). reflexivity.
    + rewrite upd_other in Hnext by congruence. apply (Hnext o Hi). reflexivity.
Qed.
Lemma formatted a i b : proper [] [] (a ++ Create i :: b) -> lasts i b ->
  exists y o, o_run o_init (a ++ Create i :: b) = Some y /\ o_str y i = Some o /\ os_text o = told_as i false (mkFmt true 0 " "%char false) b.
Proof.
  intros Hp Hl. destruct (reach_ok a _ _ _ _ matches_init Hp) as (y & op & al & E & Hm & Hp1). rewrite run_app, E.
  destruct (step_ok y op al (Create i) b Hm Hp1) as (y1 & op1 & al1 & E1 & Hm1 & Hp2 & Hop & _). cbn [o_run]. rewrite E1.
  cbn [o_step] in E1. injection E1 as <-.
  assert (Hni : ~ In i op). { destruct Hp1 as (H1 & _). intros H. apply H1. exact (proj1 (proj2 (proj2 Hm)) i H). }
  destruct (run_told_as i b _ op1 al1 (mkOs [] true 0 " "%char false) Hm1 Hp2) as (y' & o' & R & Q & T).
  - cbn [o_str]. apply upd_same.
  - exact Hl.
  - exists y', o'. split; [exact R|]. split; [exact Q|]. rewrite T. cbn [os_text app]. specialize (Hop i).
    destruct (in_dec Nat.eq_dec i op1) as [H|H]; [exfalso; apply Hni, Hop, H|reflexivity].
Qed.
