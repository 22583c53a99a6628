(** * Proofs about the Windows keyboard when calls fail *)

From Verif Require Import Base TerminalModel TelnetSpec WinKeyboardModel WinKeyboardSpec WinKeyboardProofs WinFailModel WinFailSpec.
Open Scope nat_scope.
Open Scope list_scope.

Lemma f_run_app d l : forall l' c, f_run d (l ++ l') c = match f_run d l c with Some c' => f_run d l' c' | None => None end.
Proof.
  induction l as [|a l IH]; intros l' c; [reflexivity|]. cbn [app f_run]. destruct c as [s|]; [|reflexivity]. destruct (f_step d a s); [apply IH|reflexivity].
Qed.
Lemma ok_run d l : forall s, f_run d (map FOk l) (FRun s) = option_map FRun (h_run l s).
Proof. induction l as [|a l IH]; intros s; [reflexivity|]. cbn [map f_run f_step h_run]. destruct (h_step a s); [apply IH|reflexivity]. Qed.

(** ** The keys *)
(** The last character was a prefix. *)
Fixpoint mid (l : list (option ascii)) : bool :=
  match l with
  | [] => false
  | None :: l' => mid l'
  | Some c :: l' => if ascii_dec c "224" then match l' with [] => true | _ :: l'' => mid l'' end else mid l'
  end.
Lemma reading_app n : forall l u, length l <= n -> mid l = false -> fail_reading (l ++ u) = fail_reading l ++ fail_reading u /\ mid (l ++ u) = mid u.
Proof.
  induction n as [|n IH]; intros l u Hn Hm.
  - destruct l; [split; reflexivity|cbn in Hn; lia].
  - destruct l as [|[c|] l]; [split; reflexivity| |].
    + cbn [app fail_reading mid] in *. destruct (ascii_dec c "224") as [->|Nc].
      * destruct l as [|o l]; [discriminate|]. cbn [app length] in *. destruct (IH l u ltac:(lia) Hm) as (-> & ->). destruct o; split; reflexivity.
      * cbn [length] in Hn. destruct (IH l u ltac:(lia) Hm) as (-> & ->). split; reflexivity.
    + cbn [app fail_reading mid length] in *. destruct (IH l u ltac:(lia) Hm) as (-> & ->). split; reflexivity.
Qed.
Lemma wget_reading c : wget c = if ascii_dec c "224" then HGet2 else HNotify (looked_up win_single c (KAscii c)).
Proof. destruct c as [[] [] [] [] [] [] [] []]; reflexivity. Qed.
Lemma wget2_reading c : wget2 c = HNotify (looked_up win_prefixed c KIgnored).
Proof. destruct c as [[] [] [] [] [] [] [] []]; reflexivity. Qed.
Lemma next_char_chars l r l' : next_char l = Some (r, l') -> win_chars l = win_chars [r] ++ win_chars l' /\ r <> ROther.
Proof.
  induction l as [|x l IH]; [discriminate|]. destruct x; cbn [next_char]; intros H; try (injection H as <- <-; split; [cbn; rewrite ?app_nil_r; reflexivity|discriminate]).
  apply IH, H.
Qed.
Lemma getch_gives s c l p : getch s = Some (c, l, p) -> win_half s ++ win_chars (wk_recs s) = c :: match p with Some c' => [c'] | None => [] end ++ win_chars l.
Proof.
  unfold getch, win_half. destruct (wk_crt s) as [c0|]; [intros [= <- <- <-]; reflexivity|]. destruct (next_char (wk_recs s)) as [(r & l0)|] eqn:En; [|discriminate].
  apply next_char_chars in En as (-> & N). destruct r as [c1|e c1|]; [| |congruence]; intros [= <- <- <-]; [reflexivity|]. destruct e; reflexivity.
Qed.
Record said (l : list fact) (s : wkbd) (items : list (option ascii)) (lost : list key) : Prop := mkSaid {
  sd_given : given items ++ win_half s ++ win_chars (wk_recs s) = win_chars (f_arrived l);
  sd_ends : ends_of items = failed FEof l;
  sd_lost : length lost = failed FPost l;
  sd_done : lost <> [] -> wk_w s = HDone;
  sd_mid : mid items = match wk_w s with HGet2 => true | _ => false end;
  sd_keys : fail_reading items = win_found s ++ lost;
  sd_pre : wk_w s = HGet2 -> exists it, items = it ++ [Some "224"%char] /\ mid it = false /\ fail_reading it = wk_keys s }.
Lemma failed_app a l x : failed a (l ++ [x]) = failed a l + if fact_eqb a x then 1 else 0.
Proof. unfold failed. rewrite filter_app, app_length. cbn [filter]. destruct (fact_eqb a x); reflexivity. Qed.
Lemma given_app a b : given (a ++ b) = given a ++ given b.
Proof. unfold given. apply flat_map_app. Qed.
Lemma ends_app a b : ends_of (a ++ b) = ends_of a + ends_of b.
Proof. unfold ends_of. rewrite filter_app, app_length. reflexivity. Qed.
Lemma arrived_app l x : f_arrived (l ++ [x]) = f_arrived l ++ match x with FOk (Arrive r) => [r] | _ => [] end.
Proof. unfold f_arrived. rewrite flat_map_app. cbn. rewrite app_nil_r. reflexivity. Qed.
Lemma no_lost l s items lost : said l s items lost -> wk_w s <> HDone -> lost = [].
Proof. intros S N. destruct lost; [reflexivity|]. exfalso. apply N, (sd_done _ _ _ _ S). discriminate. Qed.
(** Something that was read. *)
Lemma said_read l s items lost o s' x : said l s items lost -> wk_w s = HGet \/ wk_w s = HGet2 ->
  given [o] ++ win_half s' ++ win_chars (wk_recs s') = win_half s ++ win_chars (wk_recs s) ->
  wk_w s' = (match wk_w s with
             | HGet2 => HNotify match o with Some c => looked_up win_prefixed c KIgnored | None => KIgnored end
             | _ => match o with Some c => if ascii_dec c "224" then HGet2 else HNotify (looked_up win_single c (KAscii c)) | None => HNotify KEof end
             end) ->
  wk_keys s' = wk_keys s -> f_arrived (l ++ [x]) = f_arrived l -> failed FEof (l ++ [x]) = failed FEof l + ends_of [o] -> failed FPost (l ++ [x]) = failed FPost l ->
  said (l ++ [x]) s' (items ++ [o]) lost.
Proof.
  intros S Hw Hg Hw' Hk Ha He Hp. assert (L0 : lost = []) by (apply (no_lost _ _ _ _ S); destruct Hw as [-> | ->]; discriminate). destruct S as [S1 S2 S3 S4 S5 S6 S7]. subst lost.
  split.
  - rewrite given_app, <- app_assoc, Hg, Ha. exact S1.
  - rewrite ends_app, He, S2. reflexivity.
  - rewrite Hp. exact S3.
  - congruence.
  - destruct Hw as [Ew|Ew]; rewrite Ew in *.
    + rewrite (proj2 (reading_app (length items) items [o] (le_n _) S5)), Hw'. destruct o as [c|]; [|reflexivity]. cbn [mid]. destruct (ascii_dec c "224"); reflexivity.
    + destruct (S7 eq_refl) as (it & -> & Mi & _). rewrite <- app_assoc, Hw'. rewrite (proj2 (reading_app (length it) it _ (le_n _) Mi)). destruct o; reflexivity.
  - unfold win_found in *. destruct Hw as [Ew|Ew]; rewrite Ew in *.
    + rewrite (proj1 (reading_app (length items) items [o] (le_n _) S5)), S6, Hk, Hw', !app_nil_r. f_equal. destruct o as [c|]; [|reflexivity]. cbn [fail_reading]. destruct (ascii_dec c "224"); reflexivity.
    + destruct (S7 eq_refl) as (it & -> & Mi & Er). rewrite <- app_assoc, (proj1 (reading_app (length it) it _ (le_n _) Mi)), Er, Hk, Hw', !app_nil_r. destruct o; reflexivity.
  - intros Eh. rewrite Hw' in Eh. destruct Hw as [Ew|Ew]; rewrite Ew in *; [|discriminate]. destruct o as [c|]; [|discriminate]. destruct (ascii_dec c "224") as [->|]; [|discriminate].
    exists items. split; [reflexivity|]. split; [exact S5|]. rewrite S6, Hk. unfold win_found. rewrite Ew, !app_nil_r. reflexivity.
Qed.
(** Nothing was read. *)
Lemma said_other l s items lost s' x : said l s items lost ->
  win_half s' ++ win_chars (wk_recs s') = win_half s ++ win_chars (wk_recs s) ++ win_chars (match x with FOk (Arrive r) => [r] | _ => [] end) ->
  win_found s' = win_found s -> (wk_w s = HGet2 <-> wk_w s' = HGet2) -> (wk_w s' = HGet2 -> wk_keys s' = wk_keys s) -> (wk_w s = HDone -> wk_w s' = HDone) ->
  failed FEof (l ++ [x]) = failed FEof l -> failed FPost (l ++ [x]) = failed FPost l ->
  said (l ++ [x]) s' items lost.
Proof.
  intros [S1 S2 S3 S4 S5 S6 S7] Hg Hf H2 Hk Hd He Hp. split.
  - rewrite Hg, arrived_app. unfold win_chars in *. rewrite flat_map_app, <- S1, <- !app_assoc. reflexivity.
  - congruence.
  - congruence.
  - auto.
  - rewrite S5. destruct (wk_w s) eqn:Ew, (wk_w s') eqn:Ew'; try reflexivity; exfalso; first [discriminate (proj1 H2 eq_refl)|discriminate (proj2 H2 eq_refl)].
  - congruence.
  - intros E. rewrite (Hk E). apply S7, H2, E.
Qed.
Lemma said_step d a l s s' items lost : said l s items lost -> f_step d a s = Some (FRun s') -> exists items' lost', said (l ++ [a]) s' items' lost'.
Proof.
  intros S H.
  assert (Hz : forall b, (match b with FWait | FStop | FOk _ => True | _ => False end) -> failed FEof (l ++ [b]) = failed FEof l /\ failed FPost (l ++ [b]) = failed FPost l).
  { intros b Hb. rewrite !failed_app. destruct b; try contradiction; cbn; lia. }
  destruct a as [a| | | |]; cbn [f_step] in H.
  - destruct (h_step a s) as [s1|] eqn:Eh; [|discriminate]. injection H as <-. destruct (Hz (FOk a) Logic.I) as (Z1 & Z2). destruct a as [| |r]; cbn [h_step] in Eh.
    + unfold hw_step in Eh. destruct (wk_w s) eqn:Ew.
      * exists items, lost. apply (said_other l s items lost s1 (FOk HGo) S); auto;
          (destruct (wk_stop s); [injection Eh as <-|destruct (wk_recs s) as [|r0 rs] eqn:Er; [discriminate|injection Eh as <-]]); unfold win_found, win_half; cbn [wk_w wk_crt wk_recs wk_keys];
          rewrite ?Ew, ?Er, ?app_nil_r; try reflexivity; try (split; congruence); try congruence; cbn; rewrite ?app_nil_r; reflexivity.
      * unfold get_then in Eh. destruct (getch s) as [((c & rs) & p)|] eqn:Eg; [|discriminate]. injection Eh as <-. exists (items ++ [Some c]), lost.
        apply (said_read l s items lost (Some c) _ (FOk HGo) S); auto.
        -- cbn [wk_recs]. rewrite (getch_gives _ _ _ _ Eg). unfold win_half. cbn [wk_crt]. reflexivity.
        -- cbn [wk_w]. rewrite Ew. apply wget_reading.
        -- rewrite arrived_app. apply app_nil_r.
        -- rewrite Z1. cbn. lia.
      * unfold get_then in Eh. destruct (getch s) as [((c & rs) & p)|] eqn:Eg; [|discriminate]. injection Eh as <-. exists (items ++ [Some c]), lost.
        apply (said_read l s items lost (Some c) _ (FOk HGo) S); auto.
        -- cbn [wk_recs]. rewrite (getch_gives _ _ _ _ Eg). unfold win_half. cbn [wk_crt]. reflexivity.
        -- cbn [wk_w]. rewrite Ew. apply wget2_reading.
        -- rewrite arrived_app. apply app_nil_r.
        -- rewrite Z1. cbn. lia.
      * injection Eh as <-. exists items, lost. apply (said_other l s items lost _ (FOk HGo) S); auto; unfold win_found, win_half; cbn [wk_w wk_crt wk_recs wk_keys]; rewrite ?Ew, ?app_nil_r; try reflexivity; try (split; congruence); try congruence.
      * discriminate.
    + exists items, lost. unfold hm_step in Eh. apply (said_other l s items lost s1 (FOk DGo) S); auto;
        (destruct (wk_m s); try discriminate; [| |destruct (wk_w s) eqn:Ew; try discriminate]; injection Eh as <-); unfold win_found, win_half; cbn [wk_w wk_crt wk_recs wk_keys]; rewrite ?Ew; try reflexivity; try tauto; cbn; rewrite ?app_nil_r; reflexivity.
    + injection Eh as <-. exists items, lost. apply (said_other l s items lost _ (FOk (Arrive r)) S); auto; try reflexivity; try tauto.
      unfold win_half. cbn [wk_crt wk_recs]. unfold win_chars. rewrite flat_map_app. reflexivity.
  - destruct (wk_w s) eqn:Ew; try discriminate. destruct d; [discriminate|]. injection H as <-. destruct (Hz FWait Logic.I) as (Z1 & Z2). exists items, lost.
    apply (said_other l s items lost _ FWait S); auto; unfold win_found, win_half, at_w; cbn [wk_w wk_crt wk_recs wk_keys]; rewrite ?Ew, ?app_nil_r; try reflexivity; try (split; congruence); try congruence.
  - exists (items ++ [None]), lost. apply (said_read l s items lost None s' FEof S).
    + destruct (wk_w s); auto; discriminate.
    + destruct (wk_w s); try discriminate; destruct (wk_crt s) eqn:Ec; try discriminate; injection H as <-; reflexivity.
    + destruct (wk_w s); try discriminate; destruct (wk_crt s) eqn:Ec; try discriminate; injection H as <-; reflexivity.
    + destruct (wk_w s); try discriminate; destruct (wk_crt s) eqn:Ec; try discriminate; injection H as <-; reflexivity.
    + rewrite arrived_app. apply app_nil_r.
    + rewrite failed_app. reflexivity.
    + rewrite failed_app. cbn. lia.
  - destruct (wk_w s) as [| | |k|] eqn:Ew; try discriminate. injection H as <-. assert (L0 : lost = []) by (apply (no_lost _ _ _ _ S); congruence). destruct S as [S1 S2 S3 S4 S5 S6 S7]. subst lost.
    exists items, [k]. split.
    + rewrite arrived_app, app_nil_r. exact S1.
    + rewrite failed_app. cbn. lia.
    + rewrite failed_app. cbn. cbn in S3. lia.
    + reflexivity.
    + rewrite S5, Ew. reflexivity.
    + rewrite S6. unfold win_found. cbn [at_w wk_w wk_keys]. rewrite Ew, !app_nil_r. reflexivity.
    + discriminate.
  - destruct (wk_m s); try discriminate. injection H as <-. destruct (Hz FStop Logic.I) as (Z1 & Z2). exists items, lost.
    apply (said_other l s items lost _ FStop S); auto; unfold win_found, win_half; cbn [wk_w wk_crt wk_recs wk_keys]; try reflexivity; try tauto. cbn. rewrite app_nil_r. reflexivity.
Qed.
Lemma said_run d l : forall l0 s s' items lost, said l0 s items lost -> f_run d l (FRun s) = Some (FRun s') -> exists items' lost', said (l0 ++ l) s' items' lost'.
Proof.
  induction l as [|a l IH]; intros l0 s s' items lost S H; cbn [f_run] in H.
  - injection H as <-. rewrite app_nil_r. eauto.
  - destruct (f_step d a s) as [[s1|]|] eqn:Ea; [| |discriminate].
    + destruct (said_step d a l0 s s1 items lost S Ea) as (i1 & o1 & S1). destruct (IH _ s1 s' i1 o1 S1 H) as (i2 & o2 & S2). rewrite <- app_assoc in S2. eauto.
    + destruct l; discriminate.
Qed.
Theorem fail_keys d l s : f_run d l (FRun wk_init) = Some (FRun s) ->
  exists items lost, fail_reading items = win_found s ++ lost /\ given items ++ win_half s ++ win_chars (wk_recs s) = win_chars (f_arrived l) /\
    ends_of items = failed FEof l /\ length lost = failed FPost l /\ (lost <> [] -> wk_w s = HDone).
Proof.
  intros H. assert (S0 : said [] wk_init [] []) by (split; try reflexivity; try congruence; discriminate).
  destruct (said_run d l [] wk_init s [] [] S0 H) as (items & lost & [S1 S2 S3 S4 S5 S6 S7]). exists items, lost. auto.
Qed.

(** ** Assertions *)
Theorem fail_debug l c : f_run true l (FRun wk_init) = Some c ->
  (failed FWait l = 0 /\ exists s, c = FRun s) \/ (c = FAborted /\ exists l', l = l' ++ [FWait] /\ failed FWait l' = 0).
Proof.
  generalize wk_init. induction l as [|a l IH]; intros s0 H; cbn [f_run] in H.
  - injection H as <-. left. split; [reflexivity|eauto].
  - destruct (f_step true a s0) as [[s1|]|] eqn:Ea; [| |discriminate].
    + assert (Na : fact_eqb FWait a = false). { destruct a; try reflexivity. cbn in Ea. destruct (wk_w s0); discriminate. }
      destruct (IH s1 H) as [(Hf & Hs)|(-> & l' & -> & Hf)].
      * left. split; [|exact Hs]. unfold failed in *. cbn [filter]. rewrite Na. exact Hf.
      * right. split; [reflexivity|]. exists (a :: l'). split; [reflexivity|]. unfold failed in *. cbn [filter]. rewrite Na. exact Hf.
    + assert (a = FWait). { destruct a as [a| | | |]; cbn in Ea; [destruct (h_step a s0); discriminate|reflexivity|destruct (wk_w s0); try discriminate; destruct (wk_crt s0); discriminate|destruct (wk_w s0); discriminate|destruct (wk_m s0); discriminate]. }
      subst a. destruct l; [|discriminate]. injection H as <-. right. split; [reflexivity|]. exists []. auto.
Qed.

(** ** The end *)
Lemma fail_stopping d a s s' : stopping s -> f_step d a s = Some (FRun s') ->
  stopping s' /\ (if by_thread a then 1 else 0) + win_weight (wk_w s') <= win_weight (wk_w s) + (if fact_eqb FWait a then 4 else 0).
Proof.
  intros S H. destruct a as [a| | | |]; cbn [f_step] in H.
  - destruct (h_step a s) as [s1|] eqn:Eh; [|discriminate]. injection H as <-. destruct (stopping_step a s s1 S Eh) as (S1 & Hw). split; [exact S1|].
    destruct a; cbn [is_hgo by_thread fact_eqb] in *; [lia|rewrite Hw; lia|rewrite Hw; lia].
  - destruct S as (S1 & S2). destruct (wk_w s) eqn:Ew; try discriminate. destruct d; [discriminate|]. injection H as <-. cbn. split; [|lia]. split; cbn [at_w wk_m wk_w wk_stop].
    + destruct S1 as [S1|(_ & S1)]; [auto|congruence].
    + destruct S2 as [S2|S2]; [congruence|auto].
  - destruct S as (S1 & S2). destruct (wk_w s) eqn:Ew; try discriminate; (destruct (wk_crt s); [discriminate|]); injection H as <-; cbn; (split; [|lia]); (split; cbn [at_w wk_m wk_w wk_stop];
      [destruct S1 as [S1|(_ & S1)]; [auto|congruence]|destruct S2 as [S2|S2]; [congruence|auto]]).
  - destruct S as (S1 & S2). destruct (wk_w s) eqn:Ew; try discriminate. injection H as <-. cbn. split; [|lia]. split; cbn [at_w wk_m wk_w wk_stop]; [|auto].
    destruct S1 as [S1|(_ & S1)]; [auto|congruence].
  - destruct S as (S1 & S2). destruct (wk_m s) eqn:Em; try discriminate. destruct S1 as [S1|(S1 & _)]; discriminate.
Qed.
Lemma fail_stopping_run d l : forall s s', stopping s -> f_run d l (FRun s) = Some (FRun s') ->
  stopping s' /\ length (filter by_thread l) + win_weight (wk_w s') <= win_weight (wk_w s) + 4 * failed FWait l.
Proof.
  induction l as [|a l IH]; intros s s' S H; cbn [f_run] in H; [injection H as <-; cbn; split; [exact S|lia]|].
  destruct (f_step d a s) as [[s1|]|] eqn:Ea; [| |discriminate]; [|destruct l; discriminate].
  destruct (fail_stopping d a s s1 S Ea) as (S1 & W). destruct (IH s1 s' S1 H) as (S' & W'). split; [exact S'|]. unfold failed in *. cbn [filter].
  destruct (by_thread a), (fact_eqb FWait a); cbn [length]; lia.
Qed.
Definition joinable (s : wkbd) : Prop := wk_m s = DGone -> wk_w s = HDone.
Lemma joinable_step d a s s' : joinable s -> f_step d a s = Some (FRun s') -> joinable s'.
Proof.
  unfold joinable. intros J H Hg. destruct a as [a| | | |]; cbn [f_step] in H.
  - destruct (h_step a s) as [s1|] eqn:Eh; [|discriminate]. injection H as <-. destruct a as [| |r]; cbn [h_step] in Eh.
    + exfalso. unfold hw_step, get_then in Eh. assert (Hm : wk_m s = DGone).
      { destruct (wk_w s); [destruct (wk_stop s); [|destruct (wk_recs s); [discriminate|]]|destruct (getch s) as [((c & l0) & p)|]; [|discriminate]|destruct (getch s) as [((c & l0) & p)|]; [|discriminate]| |discriminate]; injection Eh as <-; exact Hg. }
      rewrite (J Hm) in Eh. discriminate.
    + unfold hm_step in Eh. destruct (wk_m s); try discriminate; [injection Eh as <-; discriminate|injection Eh as <-; discriminate|]. destruct (wk_w s) eqn:Ew; try discriminate. injection Eh as <-. reflexivity.
    + injection Eh as <-. cbn in *. auto.
  - destruct (wk_w s) eqn:Ew; try discriminate. destruct d; [discriminate|]. injection H as <-. cbn in Hg. specialize (J Hg). congruence.
  - destruct (wk_w s) eqn:Ew; try discriminate; (destruct (wk_crt s); [discriminate|]); injection H as <-; cbn in Hg; specialize (J Hg); congruence.
  - destruct (wk_w s) eqn:Ew; try discriminate. injection H as <-. reflexivity.
  - destruct (wk_m s); try discriminate. injection H as <-. discriminate.
Qed.
Theorem fail_shutdown d l s l' s' : f_run d l (FRun wk_init) = Some (FRun s) -> wk_m s = DJoin -> failed FStop l = 0 -> f_run d l' (FRun s) = Some (FRun s') ->
  length (filter by_thread l') <= 4 + 4 * failed FWait l' /\
  (wk_m s' = DGone \/ (exists s'', h_step HGo s' = Some s'') \/ (exists s'', h_step DGo s' = Some s'' /\ wk_m s'' = DGone) \/
   (win_getting (wk_w s') /\ filter character (wk_recs s') = [] /\ wk_crt s' = None)).
Proof.
  intros H Hm Hf H'.
  assert (Hok : forall l0 s0 s1, (wk_m s0 = DJoin -> wk_w s0 = HDone \/ wk_stop s0 = true) -> failed FStop l0 = 0 -> f_run d l0 (FRun s0) = Some (FRun s1) -> wk_m s1 = DJoin -> wk_w s1 = HDone \/ wk_stop s1 = true).
  { clear. induction l0 as [|a l0 IH]; intros s0 s1 J Hf H; cbn [f_run] in H; [injection H as <-; exact J|]. destruct (f_step d a s0) as [[s2|]|] eqn:Ea; [| |discriminate]; [|destruct l0; discriminate].
    apply (IH s2 s1); [|unfold failed in *; cbn [filter] in Hf; destruct (fact_eqb FStop a); [discriminate|exact Hf]|exact H]. clear IH H s1. intros Hm. destruct a as [a| | | |]; cbn [f_step] in Ea.
    - destruct (h_step a s0) as [s3|] eqn:Eh; [|discriminate]. injection Ea as <-. destruct a as [| |r]; cbn [h_step] in Eh.
      + unfold hw_step, get_then in Eh. destruct (wk_w s0) eqn:Ew.
        * destruct (wk_stop s0) eqn:Es; [injection Eh as <-; left; reflexivity|]. destruct (wk_recs s0); [discriminate|]. injection Eh as <-. destruct (J Hm) as [J1|J1]; discriminate.
        * destruct (getch s0) as [((c & l1) & p)|]; [|discriminate]. injection Eh as <-. destruct (J Hm) as [J1|J1]; [discriminate|right; exact J1].
        * destruct (getch s0) as [((c & l1) & p)|]; [|discriminate]. injection Eh as <-. destruct (J Hm) as [J1|J1]; [discriminate|right; exact J1].
        * injection Eh as <-. destruct (J Hm) as [J1|J1]; [discriminate|right; exact J1].
        * discriminate.
      + unfold hm_step in Eh. destruct (wk_m s0); try discriminate; [injection Eh as <-; discriminate|injection Eh as <-; right; reflexivity|]. destruct (wk_w s0) eqn:Ew; try discriminate. injection Eh as <-. discriminate.
      + injection Eh as <-. exact (J Hm).
    - destruct (wk_w s0) eqn:Ew; try discriminate. destruct d; [discriminate|]. injection Ea as <-. destruct (J Hm) as [J1|J1]; [congruence|right; exact J1].
    - destruct (wk_w s0) eqn:Ew; try discriminate; (destruct (wk_crt s0); [discriminate|]); injection Ea as <-; (destruct (J Hm) as [J1|J1]; [congruence|right; exact J1]).
    - destruct (wk_w s0) eqn:Ew; try discriminate. injection Ea as <-. left. reflexivity.
    - unfold failed in Hf. cbn in Hf. discriminate. }
  assert (S : stopping s) by (split; [left; exact Hm|exact (Hok l wk_init s ltac:(discriminate) Hf H Hm)]).
  destruct (fail_stopping_run d l' s s' S H') as ((M & T) & W). split.
  - assert (win_weight (wk_w s) <= 4) by (destruct (wk_w s); cbn; lia). lia.
  - destruct M as [M|(M & _)]; [|left; exact M]. right. destruct (wk_w s') eqn:Ew; cbn [h_step win_getting].
    + left. destruct T as [T|T]; [discriminate|]. unfold hw_step. rewrite Ew, T. eauto.
    + unfold hw_step. rewrite Ew. unfold get_then. destruct (getch s') as [((c & l1) & p)|] eqn:Eg; [left; eauto|]. right. right. split; [exact Logic.I|]. unfold getch in Eg. destruct (wk_crt s'); [discriminate|].
      split; [|reflexivity]. destruct (next_char (wk_recs s')) as [(r & l0)|] eqn:En; [|exact (next_char_none _ En)]. apply next_char_chars in En as (_ & N). destruct r; congruence.
    + unfold hw_step. rewrite Ew. unfold get_then. destruct (getch s') as [((c & l1) & p)|] eqn:Eg; [left; eauto|]. right. right. split; [exact Logic.I|]. unfold getch in Eg. destruct (wk_crt s'); [discriminate|].
      split; [|reflexivity]. destruct (next_char (wk_recs s')) as [(r & l0)|] eqn:En; [|exact (next_char_none _ En)]. apply next_char_chars in En as (_ & N). destruct r; congruence.
    + left. unfold hw_step. rewrite Ew. eauto.
    + right. left. unfold hm_step. rewrite M, Ew. eauto.
Qed.

(** ** Never ending *)
Lemma deaf_step d a s s' : wk_m s = DJoin -> wk_stop s = false -> wk_w s <> HDone -> a <> FPost -> f_step d a s = Some (FRun s') -> wk_m s' = DJoin /\ wk_stop s' = false /\ wk_w s' <> HDone.
Proof.
  intros Hm Hs Hw Na H. destruct a as [a| | | |]; cbn [f_step] in H; [|destruct (wk_w s) eqn:Ew; try discriminate; (destruct d; [discriminate|]); injection H as <-; cbn; repeat split; auto; discriminate| |congruence|rewrite Hm in H; discriminate].
  - destruct (h_step a s) as [s1|] eqn:Eh; [|discriminate]. injection H as <-. destruct a as [| |r]; cbn [h_step] in Eh.
    + unfold hw_step, get_then in Eh. destruct (wk_w s) eqn:Ew; try congruence.
      * rewrite Hs in Eh. destruct (wk_recs s); [discriminate|]. injection Eh as <-. cbn. repeat split; auto; discriminate.
      * destruct (getch s) as [((c & l1) & p)|]; [|discriminate]. injection Eh as <-. cbn. rewrite wget_reading. repeat split; auto. destruct (ascii_dec c "224"); discriminate.
      * destruct (getch s) as [((c & l1) & p)|]; [|discriminate]. injection Eh as <-. cbn. repeat split; auto; discriminate.
      * injection Eh as <-. cbn. repeat split; auto; discriminate.
    + unfold hm_step in Eh. rewrite Hm in Eh. destruct (wk_w s); try discriminate. congruence.
    + injection Eh as <-. auto.
  - destruct (wk_w s) eqn:Ew; try discriminate; (destruct (wk_crt s); [discriminate|]); injection H as <-; cbn; repeat split; auto; discriminate.
Qed.
Lemma deaf d l : forall s s', wk_m s = DJoin -> wk_stop s = false -> wk_w s <> HDone -> failed FPost l = 0 -> f_run d l (FRun s) = Some (FRun s') -> wk_m s' = DJoin.
Proof.
  induction l as [|a l IH]; intros s s' Hm Hs Hw Hf H; cbn [f_run] in H; [congruence|]. destruct (f_step d a s) as [[s1|]|] eqn:Ea; [| |discriminate]; [|destruct l; discriminate].
  assert (Na : a <> FPost) by (intros ->; discriminate Hf). destruct (deaf_step d a s s1 Hm Hs Hw Na Ea) as (A & B & C).
  apply (IH s1 s' A B C); [|exact H]. unfold failed in *. cbn [filter] in Hf. destruct (fact_eqb FPost a); [discriminate|exact Hf].
Qed.
Theorem fail_over d l s : f_run d l (FRun wk_init) = Some (FRun s) -> wk_m s = DGone -> wk_w s = HDone.
Proof.
  assert (G : forall s0, joinable s0 -> f_run d l (FRun s0) = Some (FRun s) -> joinable s).
  { induction l as [|a l' IH]; intros s0 J H; cbn [f_run] in H; [injection H as <-; exact J|]. destruct (f_step d a s0) as [[s1|]|] eqn:Ea; [| |discriminate]; [|destruct l'; discriminate].
    exact (IH s1 (joinable_step d a s0 s1 J Ea) H). }
  intros H. apply (G wk_init); [discriminate|exact H].
Qed.

(** No input, and every wait fails: the thread reports the end of the input again and again. *)
Lemma flood n : forall s, wk_w s = HWait -> wk_crt s = None ->
  f_run false (concat (repeat [FWait; FEof; FOk HGo] n)) (FRun s) = Some (FRun (mkWk HWait (wk_m s) (wk_stop s) (wk_recs s) None (wk_keys s ++ repeat KEof n))).
Proof.
  induction n as [|n IH]; intros s Hw Hc; cbn [repeat concat app f_run].
  - rewrite app_nil_r. destruct s. cbn in *. subst. reflexivity.
  - cbn [f_step]. rewrite Hw. cbn [f_run f_step at_w wk_w wk_crt]. rewrite Hc. cbn [f_run f_step h_step hw_step at_w wk_w wk_crt option_map]. rewrite IH; [|reflexivity|exact Hc].
    cbn [at_w wk_m wk_stop wk_recs wk_keys]. rewrite <- app_assoc. reflexivity.
Qed.

(** Why the thread ends. *)
Definition told (l : list fact) (s : wkbd) : Prop :=
  (wk_w s = HDone -> failed FPost l > 0 \/ (failed FStop l = 0 /\ (wk_m s = DJoin \/ wk_m s = DGone))) /\
  (wk_stop s = true -> failed FStop l = 0 /\ (wk_m s = DJoin \/ wk_m s = DGone)) /\ (match wk_m s with DUser | DStop => failed FStop l = 0 | _ => True end).
Lemma told_step d a l s s' : told l s -> f_step d a s = Some (FRun s') -> told (l ++ [a]) s'.
Proof.
  unfold told. intros (H1 & H2 & H3) Hs. rewrite !failed_app. destruct a as [a| | | |]; cbn [fact_eqb f_step] in *; rewrite ?Nat.add_0_r.
  - destruct (h_step a s) as [s1|] eqn:Ha; [|discriminate]. cbn in Hs. injection Hs as <-. destruct a as [| |r]; cbn [h_step] in Ha.
    + unfold hw_step in Ha. destruct (wk_w s) eqn:Ew; try discriminate.
      * destruct (wk_stop s) eqn:Est; [|destruct (wk_recs s); [discriminate|]]; injection Ha as <-; cbn; (split; [|split; [|exact H3]]); try discriminate; intros _; auto.
      * unfold get_then in Ha. destruct (getch s) as [((c & r) & q)|]; [|discriminate]. injection Ha as <-. cbn. split; [|split; [exact H2|exact H3]]. rewrite wget_reading. destruct (ascii_dec c "224"); discriminate.
      * unfold get_then in Ha. destruct (getch s) as [((c & r) & q)|]; [|discriminate]. injection Ha as <-. cbn. split; [|split; [exact H2|exact H3]]. rewrite wget2_reading. discriminate.
      * injection Ha as <-. cbn. split; [discriminate|]. split; [exact H2|exact H3].
    + unfold hm_step in Ha. destruct (wk_m s) eqn:Em; try discriminate.
      * injection Ha as <-. cbn. split; [intros E; destruct (H1 E) as [H|(_ & [H|H])]; [auto|discriminate|discriminate]|]. split; [intros E; destruct (H2 E) as (_ & [H|H]); discriminate|exact H3].
      * injection Ha as <-. cbn. split; [intros E; auto|]. split; auto.
      * destruct (wk_w s) eqn:Ew; try discriminate. injection Ha as <-. cbn. split; [intros _; destruct (H1 eq_refl) as [H|(H & _)]; auto|]. split; [intros E; destruct (H2 E); auto|exact Logic.I].
    + injection Ha as <-. cbn. auto.
  - destruct (wk_w s); try discriminate. destruct d; [discriminate|]. injection Hs as <-. cbn. split; [discriminate|auto].
  - destruct (wk_w s), (wk_crt s); try discriminate; injection Hs as <-; cbn; (split; [discriminate|auto]).
  - destruct (wk_w s); try discriminate. injection Hs as <-. cbn. split; [intros _; left; lia|auto].
  - destruct (wk_m s) eqn:Em; try discriminate. injection Hs as <-. cbn. split; [intros E; destruct (H1 E) as [H|(_ & [H|H])]; [left; exact H|discriminate|discriminate]|]. split; [|exact Logic.I]. intros E; destruct (H2 E) as (_ & [H|H]); discriminate.
Qed.
Theorem fail_ends d l s : f_run d l (FRun wk_init) = Some (FRun s) -> wk_w s = HDone -> failed FPost l > 0 \/ (failed FStop l = 0 /\ (wk_m s = DJoin \/ wk_m s = DGone)).
Proof.
  assert (G : forall l2 l1 s0 s1, told l1 s0 -> f_run d l2 (FRun s0) = Some (FRun s1) -> told (l1 ++ l2) s1).
  { induction l2 as [|a l2 IH]; intros l1 s0 s1 J H; cbn [f_run] in H; [injection H as <-; rewrite app_nil_r; exact J|]. destruct (f_step d a s0) as [[s2|]|] eqn:Ea; [| |discriminate]; [|destruct l2; discriminate].
    change (a :: l2) with ([a] ++ l2). rewrite app_assoc. exact (IH _ s2 s1 (told_step d a l1 s0 s2 J Ea) H). }
  intros H. apply (G l [] wk_init); [|exact H]. split; [discriminate|]. split; [discriminate|reflexivity].
Qed.
