(** * Proofs about the Windows keyboard *)

From Verif Require Import Base TerminalModel TelnetSpec WinKeyboardModel WinKeyboardSpec.
Open Scope nat_scope.
Open Scope list_scope.

Notation chars l := (filter character l).
Lemma next_char_none l : next_char l = None -> chars l = [].
Proof. induction l as [|[c|e c|] l IH]; cbn; intros H; [reflexivity|discriminate|discriminate|apply IH, H]. Qed.
Lemma next_char_some l r l' : next_char l = Some (r, l') -> chars l = r :: chars l'.
Proof. induction l as [|[c|e c|] l IH]; cbn; intros H; [discriminate|injection H as <- <-; reflexivity|injection H as <- <-; reflexivity|apply IH, H]. Qed.

Lemma wget_plain c : ~ In c ["003"; "004"; "008"; "012"; "013"; "026"; "224"]%char -> wget c = HNotify (KAscii c).
Proof.
  destruct c as [[] [] [] [] [] [] [] []]; intros H; try reflexivity; exfalso; apply H; cbn;
    repeat (first [left; reflexivity|right]).
Qed.

(** The keys decoded, the key being read, the records not yet read. *)
Definition decoded (ts : list typed) (s : wkbd) : Prop :=
  exists done todo, win_found s = map key_of done /\
  match wk_w s with
  | HGet2 => exists t c, ts = done ++ t :: todo /\ win_rec t = RExt true c /\ wk_crt s = Some c
  | _ => ts = done ++ todo /\ wk_crt s = None
  end /\ chars (wk_recs s) = map win_rec todo.

Lemma decoded_read t todo done s l : win_plain t -> win_found s = map key_of done -> chars l = map win_rec todo ->
  forall c p, match win_rec t with RChar c' => c = c' /\ p = None | RExt e c' => c = (if e then "224" else "000")%char /\ p = Some c' | ROther => False end ->
  wk_w s = HGet ->
  decoded (done ++ t :: todo) (mkWk (wget c) (wk_m s) (wk_stop s) l p (wk_keys s)).
Proof.
  intros Ht Hf Hl c p Hr Hw. unfold win_found in Hf. rewrite Hw, app_nil_r in Hf.
  destruct t as [ch| | | | | | | |b| | |b]; cbn in Hr; destruct Hr as (-> & ->).
  1: exists (done ++ [TyChar ch]), todo; cbn in Ht; rewrite (wget_plain ch Ht).
  2-8: exists done, todo; unfold win_found; cbn; rewrite app_nil_r; (split; [exact Hf|]); (split; [eexists _, _; split; [reflexivity|split; reflexivity]|exact Hl]).
  2: exists (done ++ [TyBackspace b]), todo.
  3: exists (done ++ [TyClear]), todo.
  4: exists (done ++ [TyEof]), todo.
  5: exists (done ++ [TyEnter b]), todo.
  all: unfold win_found; cbn; rewrite map_app, Hf, <- app_assoc; auto.
Qed.
Lemma decoded_step a ts s s' : Forall win_plain ts -> decoded ts s -> h_step a s = Some s' ->
  (match a with Arrive r => character r = false | _ => True end) -> decoded ts s'.
Proof.
  intros Hp (done & todo & Hf & Hw & Hl) H Ha. destruct a as [| |r]; cbn [h_step] in H.
  - unfold hw_step in H. destruct (wk_w s) eqn:Ew.
    + destruct Hw as (-> & Hc). unfold win_found in Hf. rewrite Ew in Hf. destruct (wk_stop s); [injection H as <-; exists done, todo; unfold win_found; cbn; auto|].
      destruct (wk_recs s) as [|r0 rs] eqn:Er; [discriminate|]. injection H as <-. exists done, todo. unfold win_found. cbn [wk_w wk_keys wk_recs wk_crt]. auto.
    + destruct Hw as (-> & Hc). unfold get_then, getch in H. rewrite Hc in H. destruct (next_char (wk_recs s)) as [(r, l)|] eqn:En; [|discriminate].
      apply next_char_some in En. rewrite Hl in En. destruct todo as [|t todo]; [discriminate|]. injection En as Hr Hl'. symmetry in Hl'.
      assert (Ht : win_plain t) by (rewrite Forall_forall in Hp; apply Hp, in_or_app; right; left; reflexivity).
      destruct r as [c|e c|]; try discriminate; injection H as <-; (eapply decoded_read; [exact Ht|exact Hf|exact Hl'|rewrite Hr; auto|exact Ew]).
    + destruct Hw as (t & c & -> & Hr & Hc). unfold get_then, getch in H. rewrite Hc in H. injection H as <-. unfold win_found in Hf. rewrite Ew, app_nil_r in Hf.
      exists (done ++ [t]), todo. unfold win_found. cbn [wk_w wk_keys wk_recs wk_crt wget2]. rewrite map_app, Hf, <- app_assoc.
      split; [|split; [split; reflexivity|exact Hl]]. f_equal. destruct t; try discriminate; injection Hr as <-; reflexivity.
    + destruct Hw as (-> & Hc). injection H as <-. exists done, todo. unfold win_found in *. rewrite Ew in Hf. cbn [wk_w wk_keys wk_recs wk_crt]. rewrite app_nil_r. auto.
    + discriminate.
  - exists done, todo. unfold hm_step in H. destruct (wk_m s); try (injection H as <-; auto; fail); [|discriminate].
    destruct (wk_w s) eqn:Ew; try discriminate. injection H as <-. unfold win_found in *. cbn. rewrite Ew in *. auto.
  - injection H as <-. exists done, todo. cbn. rewrite filter_app. cbn. rewrite Ha, app_nil_r. auto.
Qed.
Lemma decoded_more ts t s r : decoded ts s -> win_rec t = r -> decoded (ts ++ [t]) (mkWk (wk_w s) (wk_m s) (wk_stop s) (wk_recs s ++ [r]) (wk_crt s) (wk_keys s)).
Proof.
  intros (done & todo & Hf & Hw & Hl) Hr. exists done, (todo ++ [t]). split; [exact Hf|]. cbn [wk_w wk_recs wk_crt]. split.
  - destruct (wk_w s); try (destruct Hw as (-> & Hc); rewrite <- app_assoc; auto). destruct Hw as (t0 & c & -> & H1 & H2). exists t0, c. rewrite <- app_assoc. auto.
  - rewrite filter_app, map_app, Hl. cbn. subst r. destruct t; reflexivity.
Qed.
Lemma decoded_run l : forall ts ts' s s', Forall win_plain (ts ++ ts') -> decoded ts s -> h_run l s = Some s' -> chars (arrived_in l) = map win_rec ts' -> decoded (ts ++ ts') s'.
Proof.
  induction l as [|a l IH]; intros ts ts' s s' Hp Hd Hr Ha.
  - injection Hr as <-. cbn in Ha. destruct ts'; [|discriminate]. rewrite app_nil_r. exact Hd.
  - cbn [h_run] in Hr. destruct (h_step a s) as [s1|] eqn:Hs; [|discriminate].
    assert (Hn : (match a with Arrive r => character r = false | _ => True end) -> decoded (ts ++ ts') s').
    { intros H. assert (Ha' : chars (arrived_in l) = map win_rec ts'). { destruct a; [exact Ha|exact Ha|]. cbn in Ha. rewrite H in Ha. exact Ha. }
      apply (IH ts ts' s1 s' Hp); [|exact Hr|exact Ha']. apply (decoded_step a ts s s1); [|exact Hd|exact Hs|exact H]. apply Forall_app in Hp. apply Hp. }
    destruct a as [| |r]; try (apply Hn; exact Logic.I). destruct (character r) eqn:Hc; [|apply Hn, eq_refl].
    cbn in Ha. rewrite Hc in Ha. destruct ts' as [|t ts']; [discriminate|]. injection Ha as Ht Ha. cbn in Hs. injection Hs as <-.
    replace (ts ++ t :: ts') with ((ts ++ [t]) ++ ts') in * by (rewrite <- app_assoc; reflexivity).
    eapply IH; [exact Hp| |exact Hr|exact Ha]. apply decoded_more; [exact Hd|]. symmetry. exact Ht.
Qed.
Theorem win_keys l s ts : h_run l wk_init = Some s -> Forall win_plain ts -> chars (arrived_in l) = map win_rec ts ->
  (exists later, map key_of ts = win_found s ++ later) /\ (h_step HGo s = None -> wk_w s <> HDone -> wk_keys s = map key_of ts).
Proof.
  intros Hr Hp Ha. destruct (decoded_run l [] ts wk_init s Hp) as (done & todo & Hf & Hw & Hl); [exists [], []; cbn; auto|exact Hr|exact Ha|]. cbn [app] in *. split.
  - rewrite Hf. destruct (wk_w s); try (destruct Hw as (-> & _); rewrite map_app; eauto). destruct Hw as (t & c & -> & _). rewrite map_app. eauto.
  - intros Hq Hd. cbn [h_step] in Hq. unfold hw_step in Hq. unfold win_found in Hf. destruct (wk_w s); try congruence.
    + destruct Hw as (-> & Hc). destruct (wk_stop s); [discriminate|]. destruct (wk_recs s); [|discriminate]. cbn in Hl. destruct todo; [|discriminate].
      rewrite !app_nil_r in *. exact Hf.
    + destruct Hw as (-> & Hc). unfold get_then, getch in Hq. rewrite Hc in Hq. destruct (next_char (wk_recs s)) as [([c|e c|], l')|] eqn:En; try discriminate.
      * exfalso. clear -En. induction (wk_recs s) as [|[c|e c|] r IH]; cbn in En; try discriminate. apply IH, En.
      * apply next_char_none in En. rewrite En in Hl. destruct todo; [|discriminate]. rewrite !app_nil_r in *. exact Hf.
    + destruct Hw as (t & c & _ & _ & Hc). unfold get_then, getch in Hq. rewrite Hc in Hq. discriminate.
Qed.

(** ** Shutdown *)
Definition win_weight (p : hpc) : nat := match p with HDone => 0 | HWait => 1 | HNotify _ => 2 | HGet2 => 3 | HGet => 4 end.
Definition stopping (s : wkbd) : Prop :=
  (wk_m s = DJoin \/ wk_m s = DGone /\ wk_w s = HDone) /\ (wk_w s = HDone \/ wk_stop s = true).
Lemma wget_weight c : win_weight (wget c) < 4.
Proof. unfold wget. repeat (match goal with |- context[if ?b then _ else _] => destruct b end; [cbn; lia|]). cbn. lia. Qed.
Lemma stopping_step a s s' : stopping s -> h_step a s = Some s' -> stopping s' /\ (if is_hgo a then win_weight (wk_w s') < win_weight (wk_w s) else wk_w s' = wk_w s).
Proof.
  intros (Hm & Hs) H. destruct a as [| |r]; cbn [h_step is_hgo] in *.
  - unfold hw_step in H. destruct (wk_w s) eqn:Ew; try discriminate; (destruct Hs as [Hs|Hs]; [discriminate|]); (destruct Hm as [Hm|(_ & Hm)]; [|discriminate]).
    + rewrite Hs in H. injection H as <-. unfold stopping. cbn. split; [auto|lia].
    + unfold get_then in H. destruct (getch s) as [((c, l), p)|]; [|discriminate]. injection H as <-. split; [split; [left; exact Hm|right; exact Hs]|apply wget_weight].
    + unfold get_then in H. destruct (getch s) as [((c, l), p)|]; [|discriminate]. injection H as <-. split; [split; [left; exact Hm|right; exact Hs]|cbn; lia].
    + injection H as <-. split; [split; [left; exact Hm|right; exact Hs]|cbn; lia].
  - unfold hm_step in H. destruct Hm as [Hm|(Hm & Hd)]; rewrite Hm in H; [|discriminate]. destruct (wk_w s) eqn:Ew; try discriminate. injection H as <-.
    unfold stopping. cbn. split; [split; [right; split; reflexivity|left; reflexivity]|reflexivity].
  - injection H as <-. unfold stopping. cbn. auto.
Qed.
Lemma stopping_run l : forall s s', stopping s -> h_run l s = Some s' -> stopping s' /\ length (filter is_hgo l) + win_weight (wk_w s') <= win_weight (wk_w s).
Proof.
  induction l as [|a l IH]; intros s s' Hs Hr; [injection Hr as <-; split; [exact Hs|cbn; lia]|]. cbn [h_run] in Hr. destruct (h_step a s) as [s1|] eqn:H1; [|discriminate].
  destruct (stopping_step a s s1 Hs H1) as (Hs1 & Hw). destruct (IH s1 s' Hs1 Hr) as (H2 & H3). split; [exact H2|]. cbn [filter]. destruct (is_hgo a); cbn [length]; [lia|rewrite Hw in H3; exact H3].
Qed.
Definition m_ok (s : wkbd) : Prop := match wk_m s with DJoin => wk_stop s = true \/ wk_w s = HDone | DGone => wk_w s = HDone | _ => wk_w s <> HDone /\ wk_stop s = false end.
Lemma m_ok_step a s s' : m_ok s -> h_step a s = Some s' -> m_ok s'.
Proof.
  intros Hm H. unfold m_ok in *. destruct a as [| |r]; cbn [h_step] in H.
  - unfold hw_step in H. destruct (wk_w s) eqn:Ew; try discriminate.
    + destruct (wk_stop s) eqn:Es; [injection H as <-; cbn; destruct (wk_m s); try (destruct Hm; discriminate); auto|].
      destruct (wk_recs s); [discriminate|]. injection H as <-. cbn. destruct (wk_m s); try (split; [discriminate|reflexivity]); [destruct Hm; discriminate|discriminate].
    + unfold get_then in H. destruct (getch s) as [((c, l), p)|]; [|discriminate]. injection H as <-. cbn. assert (Hw : wget c <> HDone). { pose proof (wget_weight c). unfold wget. repeat (match goal with |- context[if ?b then _ else _] => destruct b end; [discriminate|]). discriminate. }
      destruct (wk_m s); try (split; [exact Hw|apply Hm]); [destruct Hm; [auto|discriminate]|discriminate].
    + unfold get_then in H. destruct (getch s) as [((c, l), p)|]; [|discriminate]. injection H as <-. cbn.
      destruct (wk_m s); try (split; [discriminate|apply Hm]); [destruct Hm; [auto|discriminate]|discriminate].
    + injection H as <-. cbn. destruct (wk_m s); try (split; [discriminate|apply Hm]); [destruct Hm; [auto|discriminate]|discriminate].
  - unfold hm_step in H. destruct (wk_m s) eqn:Em; try discriminate; [injection H as <-; exact Hm|injection H as <-; cbn; auto|].
    destruct (wk_w s) eqn:Ew; try discriminate. injection H as <-. cbn. reflexivity.
  - injection H as <-. exact Hm.
Qed.
Lemma m_ok_run l : forall s s', m_ok s -> h_run l s = Some s' -> m_ok s'.
Proof.
  induction l as [|a l IH]; intros s s' Hm Hr; [injection Hr as <-; exact Hm|]. cbn [h_run] in Hr. destruct (h_step a s) as [s1|] eqn:H1; [|discriminate].
  eapply IH; [|exact Hr]. eapply m_ok_step; eassumption.
Qed.
Theorem win_ends l s l' s' : h_run l wk_init = Some s -> wk_m s = DJoin -> h_run l' s = Some s' ->
  length (filter is_hgo l') <= 4 /\
  (wk_m s' = DGone \/ (exists s'', h_step HGo s' = Some s'') \/ (exists s'', h_step DGo s' = Some s'' /\ wk_m s'' = DGone) \/ (win_getting (wk_w s') /\ chars (wk_recs s') = [] /\ wk_crt s' = None)).
Proof.
  intros Hr Hj Hr'. assert (Hs : stopping s). { pose proof (m_ok_run l wk_init s) as Hm. unfold m_ok in Hm. rewrite Hj in Hm. split; [left; exact Hj|]. destruct (Hm ltac:(split; [discriminate|reflexivity]) Hr); auto. }
  destruct (stopping_run l' s s' Hs Hr') as ((Hm & Hd) & Hw). split; [destruct (wk_w s); cbn in Hw; lia|]. destruct Hm as [Hm|(Hm & _)]; [|auto].
  assert (Hg : wk_w s' <> HDone -> h_step HGo s' = None -> win_getting (wk_w s') /\ chars (wk_recs s') = [] /\ wk_crt s' = None).
  { intros Hn Hq. destruct Hd as [Hd|Hd]; [contradiction|]. cbn [h_step] in Hq. unfold hw_step, get_then, getch in Hq. rewrite Hd in Hq.
    destruct (wk_w s'); try discriminate; try congruence; (destruct (wk_crt s'); [discriminate|]); (destruct (next_char (wk_recs s')) as [([c|e c|], l0)|] eqn:En; try discriminate);
      try (split; [exact Logic.I|]; split; [apply next_char_none, En|reflexivity]).
    all: exfalso; clear -En; induction (wk_recs s') as [|[c|e c|] r IH]; cbn in En; try discriminate; apply IH, En. }
  destruct (wk_w s') eqn:Ew.
  5:{ right. right. left. cbn [h_step]. unfold hm_step. rewrite Hm, Ew. eexists. split; reflexivity. }
  all: destruct (h_step HGo s') as [s2|] eqn:Hq; [right; left; eauto|right; right; right; apply Hg; [discriminate|reflexivity]].
Qed.
(** A thread blocked in [_getch] stays there if no key is pressed. *)
Lemma win_stuck l : forall s s', (forall r, In (Arrive r) l -> character r = false) -> win_getting (wk_w s) -> chars (wk_recs s) = [] -> wk_crt s = None -> wk_m s <> DGone ->
  h_run l s = Some s' -> wk_m s' <> DGone.
Proof.
  induction l as [|a l IH]; intros s s' Ha Hw Hc Hp Hm Hr; [injection Hr as <-; exact Hm|]. cbn [h_run] in Hr. destruct (h_step a s) as [s1|] eqn:H1; [|discriminate].
  assert (Hn : getch s = None). { unfold getch. rewrite Hp. destruct (next_char (wk_recs s)) as [(r, l0)|] eqn:En; [|reflexivity]. apply next_char_some in En. congruence. }
  assert (Ha' : forall r, In (Arrive r) l -> character r = false) by (intros r Hi; apply Ha; right; exact Hi).
  destruct a as [| |r]; cbn [h_step] in H1.
  - unfold hw_step, get_then in H1. rewrite Hn in H1. destruct (wk_w s); try contradiction; discriminate.
  - unfold hm_step in H1. destruct (wk_m s) eqn:Em; try discriminate; try (injection H1 as <-; eapply (IH _ s' Ha'); [| | | |exact Hr]; [exact Hw|exact Hc|exact Hp|cbn; discriminate]).
    destruct (wk_w s); try contradiction; discriminate.
  - injection H1 as <-. eapply (IH _ s' Ha'); [| | | |exact Hr]; [exact Hw| |exact Hp|exact Hm]. cbn. rewrite filter_app, Hc. cbn. rewrite (Ha r (or_introl eq_refl)). reflexivity.
Qed.

(** ** What is read, whatever is typed *)
Definition unread (s : wkbd) : str := match wk_w s with HGet2 => ["224"%char] | _ => [] end ++ win_half s ++ win_chars (wk_recs s).
Lemma next_char_chars l : win_chars l = match next_char l with Some (r, l') => win_chars (r :: l') | None => [] end.
Proof. induction l as [|[c|e c|] l IH]; cbn; auto. Qed.
Lemma next_char_other l l' : next_char l <> Some (ROther, l').
Proof. induction l as [|[c|e c|] l IH]; cbn; try discriminate. exact IH. Qed.
Lemma getch_chars s c l p : getch s = Some (c, l, p) -> win_half s ++ win_chars (wk_recs s) = c :: (match p with Some c' => [c'] | None => [] end) ++ win_chars l.
Proof.
  unfold getch, win_half. destruct (wk_crt s) as [c0|]; intros H; [injection H as <- <- <-; reflexivity|].
  rewrite next_char_chars. destruct (next_char (wk_recs s)) as [([c0|e0 c0|], l0)|]; try discriminate; injection H as <- <- <-; try reflexivity. destruct e0; reflexivity.
Qed.
Lemma wget_table c : wget c = if ascii_dec c "224" then HGet2 else HNotify (looked_up win_single c (KAscii c)).
Proof. destruct c as [[] [] [] [] [] [] [] []]; reflexivity. Qed.
Lemma wget2_table c : wget2 c = HNotify (looked_up win_prefixed c KIgnored).
Proof. destruct c as [[] [] [] [] [] [] [] []]; reflexivity. Qed.
Lemma win_reading_cons c l : c <> "224"%char -> win_reading (c :: l) = looked_up win_single c (KAscii c) :: win_reading l.
Proof. intros H. cbn [win_reading]. destruct (ascii_dec c "224"); [contradiction|reflexivity]. Qed.
Lemma win_reading_prefix c l : win_reading ("224"%char :: c :: l) = looked_up win_prefixed c KIgnored :: win_reading l.
Proof. reflexivity. Qed.

(** What is to come, if [more] arrives. *)
Definition to_come (more : str) (s : wkbd) : list key := win_found s ++ win_reading (unread s ++ more).
Lemma come_step a s s' : h_step a s = Some s' -> forall more,
  to_come more s' = to_come (match a with Arrive r => win_chars [r] | _ => [] end ++ more) s.
Proof.
  intros H more. unfold to_come. destruct a as [| |r]; cbn [h_step app] in *.
  - unfold hw_step in H. unfold win_found, unread. destruct (wk_w s) eqn:Ew.
    + destruct (wk_stop s); [injection H as <-; reflexivity|]. destruct (wk_recs s) as [|r0 rs] eqn:Er; [discriminate|]. injection H as <-. reflexivity.
    + unfold get_then in H. destruct (getch s) as [((c, l), p)|] eqn:Eg; [|discriminate]. injection H as <-. rewrite (getch_chars _ _ _ _ Eg). cbn [wk_w wk_keys win_half wk_crt wk_recs app].
      rewrite wget_table. unfold win_half; cbn [wk_crt]. destruct (ascii_dec c "224") as [->|Hc]; [reflexivity|]. rewrite win_reading_cons by exact Hc. rewrite app_nil_r, <- app_assoc. reflexivity.
    + unfold get_then in H. destruct (getch s) as [((c, l), p)|] eqn:Eg; [|discriminate]. injection H as <-. rewrite (getch_chars _ _ _ _ Eg). cbn [wk_w wk_keys win_half wk_crt wk_recs app].
      rewrite wget2_table. unfold win_half; cbn [wk_crt]. rewrite win_reading_prefix, app_nil_r, <- app_assoc. reflexivity.
    + injection H as <-. cbn [wk_w wk_keys]. rewrite app_nil_r. reflexivity.
    + discriminate.
  - unfold hm_step in H. destruct (wk_m s); try discriminate; try (injection H as <-; reflexivity). destruct (wk_w s) eqn:Ew; try discriminate. injection H as <-. unfold win_found, unread. cbn [wk_w wk_keys wk_recs win_half wk_crt]. rewrite Ew. reflexivity.
  - injection H as <-. unfold win_found, unread, win_chars. cbn [wk_w wk_keys wk_recs]. rewrite flat_map_app, !app_assoc. reflexivity.
Qed.
Lemma come_run l : forall s s' more, h_run l s = Some s' -> to_come more s' = to_come (win_chars (arrived_in l) ++ more) s.
Proof.
  induction l as [|a l IH]; intros s s' more Hr; [injection Hr as <-; reflexivity|]. cbn [h_run] in Hr. destruct (h_step a s) as [s1|] eqn:H1; [|discriminate].
  rewrite (IH _ _ _ Hr), (come_step _ _ _ H1). f_equal. unfold arrived_in. destruct a; cbn [flat_map app]; [reflexivity|reflexivity|].
  unfold win_chars. cbn [flat_map]. rewrite app_nil_r, <- app_assoc. reflexivity.
Qed.
Theorem win_any l s : h_run l wk_init = Some s ->
  (exists later, win_reading (win_chars (arrived_in l)) = win_found s ++ later) /\
  (h_step HGo s = None -> wk_w s <> HDone -> win_reading (win_chars (arrived_in l)) = wk_keys s ++ win_reading (win_half s)).
Proof.
  intros Hr. pose proof (come_run l wk_init s [] Hr) as Hc. rewrite app_nil_r in Hc. unfold to_come at 2 in Hc. cbn [win_found wk_init wk_keys wk_w app unread win_half wk_crt wk_recs win_chars flat_map] in Hc.
  rewrite <- Hc. unfold to_come. split; [eauto|]. intros Hq Hd. rewrite app_nil_r. cbn [h_step] in Hq. unfold hw_step in Hq. unfold win_found, unread. destruct (wk_w s) eqn:Ew; try congruence.
  - destruct (wk_stop s); [discriminate|]. destruct (wk_recs s); [|discriminate]. cbn [win_chars flat_map app]. rewrite !app_nil_r. reflexivity.
  - unfold get_then in Hq. destruct (getch s) as [((c, l0), p)|] eqn:Eg; [discriminate|]. rewrite app_nil_r. f_equal. cbn [app]. unfold getch in Eg. unfold win_half. destruct (wk_crt s); [discriminate|].
    rewrite next_char_chars. destruct (next_char (wk_recs s)) as [([c|e c|], l')|] eqn:En; try discriminate; [|reflexivity]. destruct (next_char_other _ _ En).
  - unfold get_then in Hq. destruct (getch s) as [((c, l0), p)|] eqn:Eg; [discriminate|]. rewrite app_nil_r. f_equal. cbn [app]. unfold getch in Eg. unfold win_half. destruct (wk_crt s); [discriminate|].
    rewrite next_char_chars. destruct (next_char (wk_recs s)) as [([c|e c|], l')|] eqn:En; try discriminate; [|reflexivity]. destruct (next_char_other _ _ En).
Qed.
