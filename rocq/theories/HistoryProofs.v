(** * Proofs about the command history *)

From Verif Require Import Base HistoryModel HistorySpec.

(** ** Lists *)
Lemma number_app f a b : number f (a ++ b) = number f a ++ number (f + Z.of_nat (length a)) b.
Proof.
  revert f. induction a as [|x a IH]; intro f; cbn [app number length].
  - f_equal. lia.
  - rewrite IH. do 2 f_equal. f_equal. lia.
Qed.
Lemma number_length f l : length (number f l) = length l.
Proof. revert f. induction l as [|x l IH]; intro f; cbn; [reflexivity|rewrite IH; reflexivity]. Qed.
Lemma number_skipn f n l : skipn n (number f l) = number (f + Z.of_nat (Nat.min n (length l))) (skipn n l).
Proof.
  revert f l. induction n as [|n IH]; intros f l; cbn [skipn].
  - f_equal. lia.
  - destruct l as [|x l]; cbn [number]; [reflexivity|]. rewrite IH. f_equal. cbn [length Nat.min]. lia.
Qed.
Lemma number_in f l id s : In (id, s) (number f l) <->
  (f <= id)%Z /\ nth_error l (Z.to_nat (id - f)) = Some s.
Proof.
  revert f. induction l as [|x l IH]; intro f; cbn [number In].
  - split; [tauto|]. intros [_ H]. destruct (Z.to_nat (id - f)); discriminate.
  - rewrite IH. split.
    + intros [H|[H1 H2]].
      * injection H as <- <-. split; [lia|]. rewrite Z.sub_diag. reflexivity.
      * split; [lia|]. replace (Z.to_nat (id - f)) with (S (Z.to_nat (id - (f + 1)))) by lia. exact H2.
    + intros [H1 H2]. destruct (Z.eq_dec id f) as [->|Hne].
      * rewrite Z.sub_diag in H2. cbn in H2. injection H2 as <-. left. reflexivity.
      * right. split; [lia|]. replace (Z.to_nat (id - f)) with (S (Z.to_nat (id - (f + 1)))) in H2 by lia. exact H2.
Qed.
Lemma number_map_snd f l : map snd (number f l) = l.
Proof. revert f. induction l as [|x l IH]; intro f; cbn; [reflexivity|rewrite IH; reflexivity]. Qed.

Lemma removelast_length {A} (l : list A) : length (removelast l) = length l - 1.
Proof. rewrite removelast_firstn_len, firstn_length. lia. Qed.
Lemma rev_removelast {A} (l : list A) : rev (removelast l) = tl (rev l).
Proof.
  destruct l as [|a l] using rev_ind; [reflexivity|].
  rewrite removelast_last, rev_app_distr. reflexivity.
Qed.

Lemma set_nth_spec i x b : i < length b ->
  exists b', set_nth i x b = Some b' /\ length b' = length b /\
    nth_error b' i = Some x /\ (forall j, j <> i -> nth_error b' j = nth_error b j).
Proof.
  revert i. induction b as [|y b IH]; intros i Hi; cbn in Hi; [lia|].
  destruct i as [|i].
  - exists (x :: b). cbn. repeat split. intros [|j] Hj; [congruence|reflexivity].
  - destruct (IH i ltac:(lia)) as (b' & E & L & N & O). exists (y :: b'). cbn. rewrite E, L, N.
    repeat split. intros [|j] Hj; [reflexivity|]. cbn. apply O. congruence.
Qed.
Lemma set_nth_none i x b : length b <= i -> set_nth i x b = None.
Proof.
  revert i. induction b as [|y b IH]; intros i Hi; [destruct i; reflexivity|].
  cbn in Hi. destruct i as [|i]; [lia|]. cbn. rewrite IH by lia. reflexivity.
Qed.
Lemma set_nth_same i x b : nth_error b i = Some x -> set_nth i x b = Some b.
Proof.
  revert i. induction b as [|y b IH]; intros [|i] H; cbn in *; try discriminate.
  - injection H as ->. reflexivity.
  - rewrite (IH i H). reflexivity.
Qed.

(** ** Insert *)
Lemma insert_buf h x : length (h_buf h) <= h_max h ->
  h_buf (insert h x) = firstn (h_max h) (x :: h_buf h).
Proof.
  intro H. unfold insert. destruct (Nat.ltb_spec (h_max h) (length (x :: h_buf h))) as [L|L].
  - cbn [h_buf]. rewrite removelast_firstn_len. f_equal. cbn in *. lia.
  - cbn [h_buf with_buf]. rewrite firstn_all2; [reflexivity|exact L].
Qed.

Lemma insert_bounded h x : length (h_buf h) <= h_max h -> length (h_buf (insert h x)) <= h_max (insert h x).
Proof.
  intro H. rewrite insert_buf by exact H. unfold insert.
  destruct (Nat.ltb _ _); cbn [h_max with_buf]; rewrite firstn_length; lia.
Qed.
Lemma insert_max h x : h_max (insert h x) = h_max h.
Proof. unfold insert. destruct (Nat.ltb _ _); reflexivity. Qed.
Lemma insert_cur h x : h_cur (insert h x) = h_cur h.
Proof. unfold insert. destruct (Nat.ltb _ _); reflexivity. Qed.
Lemma insert_cmds h x : h_cmds (insert h x) = h_cmds h.
Proof. unfold insert. destruct (Nat.ltb _ _); reflexivity. Qed.
Lemma insert_browse h x : h_browse (insert h x) = h_browse h.
Proof. unfold insert. destruct (Nat.ltb _ _); reflexivity. Qed.

Lemma insert_next h x : next_id (insert h x) = (next_id h + 1)%Z.
Proof.
  unfold next_id, insert. destruct (Nat.ltb_spec (h_max h) (length (x :: h_buf h))) as [L|L];
    cbn [h_oldest h_buf with_buf]; rewrite ?removelast_length; cbn [length]; lia.
Qed.
Lemma insert_oldest h x : (h_oldest h <= h_oldest (insert h x))%Z.
Proof. unfold insert. destruct (Nat.ltb _ _); cbn; lia. Qed.

Lemma insert_view h x : length (h_buf h) <= h_max h ->
  view (insert h x) = lastn (h_max h) (view h ++ [(next_id h, x)]).
Proof.
  intro H. unfold lastn. rewrite app_length. unfold view at 2. rewrite number_length, rev_length. cbn [length].
  assert (E : view h ++ [(next_id h, x)] = number (h_oldest h) (rev (x :: h_buf h))).
  { unfold view, next_id. cbn [rev]. rewrite number_app, rev_length. reflexivity. }
  rewrite E, number_skipn. unfold view, insert.
  destruct (Nat.ltb_spec (h_max h) (length (x :: h_buf h))) as [L|L]; cbn [length] in L.
  - cbn [h_oldest h_buf]. rewrite rev_removelast.
    replace (length (h_buf h) + 1 - h_max h) with 1 by lia.
    rewrite rev_length. cbn [length].
    replace (Nat.min 1 (S (length (h_buf h)))) with 1 by lia. reflexivity.
  - cbn [h_oldest h_buf with_buf].
    replace (length (h_buf h) + 1 - h_max h) with 0 by lia. cbn [Nat.min skipn].
    f_equal. lia.
Qed.

(** ** The invariant *)
Record HInv (h : history) : Prop := {
  inv_bound : length (h_buf h) <= h_max h;
  inv_browse : h_browse h = true -> h_cur h < length (h_buf h);
  inv_insert : h_browse h = false -> h_cur h = 0;
  inv_oldest : (0 <= h_oldest h)%Z
}.

Lemma init_inv n : HInv (history_init n).
Proof. split; cbn; try lia; discriminate. Qed.

Lemma insert_inv h x : HInv h -> h_browse h = false -> HInv (insert h x).
Proof.
  intros I B. split.
  - apply insert_bounded, I.
  - rewrite insert_browse, B. discriminate.
  - intros _. rewrite insert_cur. apply I, B.
  - pose proof (insert_oldest h x). pose proof (inv_oldest h I). lia.
Qed.

Lemma load_inv cmds : forall h, HInv h -> h_max h >= 1 -> HInv (load_commands h cmds).
Proof.
  unfold load_commands. induction cmds as [|c cmds IH]; intros h I M; cbn [fold_left]; [exact I|].
  apply IH; [|rewrite insert_max; exact M]. split.
  - apply insert_bounded, I.
  - rewrite insert_browse, insert_cur, insert_buf by apply I. intro B.
    rewrite firstn_length. cbn [length]. pose proof (inv_browse h I B). pose proof (inv_bound h I). lia.
  - rewrite insert_browse, insert_cur. apply I.
  - pose proof (insert_oldest h c). pose proof (inv_oldest h I). lia.
Qed.
Lemma load_max cmds : forall h, h_max (load_commands h cmds) = h_max h.
Proof.
  unfold load_commands. induction cmds as [|c cmds IH]; intro h; cbn [fold_left]; [reflexivity|].
  rewrite IH, insert_max. reflexivity.
Qed.
Lemma load_browse cmds : forall h, h_browse (load_commands h cmds) = h_browse h.
Proof.
  unfold load_commands. induction cmds as [|c cmds IH]; intro h; cbn [fold_left]; [reflexivity|].
  rewrite IH, insert_browse. reflexivity.
Qed.
Lemma load_cmds cmds : forall h, h_cmds (load_commands h cmds) = h_cmds h.
Proof.
  unfold load_commands. induction cmds as [|c cmds IH]; intro h; cbn [fold_left]; [reflexivity|].
  rewrite IH, insert_cmds. reflexivity.
Qed.

(** ** NewCommand: exact effect on the view *)
Lemma view_with_buf h b : h_oldest (with_buf h b) = h_oldest h.
Proof. reflexivity. Qed.

Lemma last_text_view h : last_text (view h) = hd_error (h_buf h).
Proof.
  unfold last_text, view. destruct (h_buf h) as [|y b]; [reflexivity|].
  cbn [rev hd_error]. rewrite number_app, rev_app_distr. reflexivity.
Qed.

(** Entering a command when not browsing. *)
Lemma new_command_insert h item : HInv h -> h_browse h = false ->
  exists h', new_command h item = Some h' /\
    h_browse h' = false /\ h_cur h' = 0 /\ h_max h' = h_max h /\ h_cmds h' = S (h_cmds h) /\
    (hd_error (h_buf h) = Some item -> h_buf h' = h_buf h /\ h_oldest h' = h_oldest h) /\
    (hd_error (h_buf h) <> Some item ->
       h_buf h' = firstn (h_max h) (item :: h_buf h) /\
       view h' = lastn (h_max h) (view h ++ [(next_id h, item)]) /\
       next_id h' = (next_id h + 1)%Z /\ (h_oldest h <= h_oldest h')%Z).
Proof.
  intros I B. unfold new_command. rewrite B. cbn [h_browse h_buf].
  set (h1 := mkHistory (h_max h) (h_buf h) 0 (S (h_cmds h)) false (h_oldest h)).
  assert (Bd : length (h_buf h1) <= h_max h1) by apply I.
  assert (G : hd_error (h_buf h) <> Some item ->
     let h2 := insert h1 item in
     exists h', Some (mkHistory (h_max h2) (h_buf h2) (h_cur h2) (h_cmds h2) false (h_oldest h2)) = Some h' /\
    h_browse h' = false /\ h_cur h' = 0 /\ h_max h' = h_max h /\ h_cmds h' = S (h_cmds h) /\
    (hd_error (h_buf h) = Some item -> h_buf h' = h_buf h /\ h_oldest h' = h_oldest h) /\
    (hd_error (h_buf h) <> Some item ->
       h_buf h' = firstn (h_max h) (item :: h_buf h) /\
       view h' = lastn (h_max h) (view h ++ [(next_id h, item)]) /\
       next_id h' = (next_id h + 1)%Z /\ (h_oldest h <= h_oldest h')%Z)).
  { intros Hne h2. eexists. split; [reflexivity|]. cbn [h_browse h_cur h_max h_cmds h_buf h_oldest].
    split; [reflexivity|]. split; [exact (insert_cur h1 item)|]. split; [exact (insert_max h1 item)|]. split; [exact (insert_cmds h1 item)|].
    split; [intro; contradiction|]. intros _. split; [apply (insert_buf h1 item Bd)|].
    split; [exact (insert_view h1 item Bd)|]. split; [exact (insert_next h1 item)|exact (insert_oldest h1 item)]. }
  destruct (h_buf h) as [|y b] eqn:Eb.
  - apply G. discriminate.
  - destruct (str_eqb_spec y item) as [->|Hne].
    + eexists. split; [reflexivity|]. cbn. repeat split; congruence.
    + apply G. cbn. congruence.
Qed.

(** Entering a command while browsing: the draft slot (index 0) is replaced, or
    removed when the entry below it already is that command. *)
Lemma new_command_browse h item : HInv h -> h_browse h = true ->
  exists draft base h', h_buf h = draft :: base /\ new_command h item = Some h' /\
    h_browse h' = false /\ h_cur h' = 0 /\ h_max h' = h_max h /\ h_cmds h' = S (h_cmds h) /\
    h_oldest h' = h_oldest h /\
    (hd_error base = Some item -> h_buf h' = base) /\
    (hd_error base <> Some item -> h_buf h' = item :: base).
Proof.
  intros I B. pose proof (inv_browse h I B) as C.
  destruct (h_buf h) as [|draft base] eqn:Eb; [cbn in C; lia|].
  exists draft, base. unfold new_command. rewrite B, Eb. cbn [h_browse h_buf h_cur].
  destruct base as [|y base].
  - eexists. split; [reflexivity|]. split; [reflexivity|]. cbn. repeat split; congruence.
  - destruct (str_eqb_spec y item) as [->|Hne].
    + eexists. split; [reflexivity|]. split; [reflexivity|]. cbn. repeat split; congruence.
    + eexists. split; [reflexivity|]. split; [reflexivity|]. cbn. repeat split; congruence.
Qed.

Lemma mk_inv h : h_browse h = false -> h_cur h = 0 -> length (h_buf h) <= h_max h ->
  (0 <= h_oldest h)%Z -> HInv h.
Proof. intros B C L O. split; [exact L|congruence|intros _; exact C|exact O]. Qed.

Lemma hd_error_dec (b : list str) x : hd_error b = Some x \/ hd_error b <> Some x.
Proof.
  destruct b as [|y b]; [right; discriminate|]. cbn.
  destruct (str_dec y x) as [->|H]; [left; reflexivity|right; congruence].
Qed.

Lemma new_command_inv h item : HInv h -> h_max h >= 1 ->
  exists h', new_command h item = Some h' /\ HInv h' /\ h_max h' = h_max h /\
             h_browse h' = false /\ hd_error (h_buf h') = Some item /\ h_cmds h' = S (h_cmds h).
Proof.
  intros I M. pose proof (inv_bound h I) as Bd. pose proof (inv_oldest h I) as Od.
  destruct (h_browse h) eqn:B.
  - destruct (new_command_browse h item I B) as (d & base & h' & Eb & E & Bf & C & Mx & Cm & O & P1 & P2).
    exists h'. split; [exact E|]. rewrite Eb in Bd. cbn in Bd.
    destruct (hd_error_dec base item) as [Q|Q].
    + specialize (P1 Q). split; [apply mk_inv; [exact Bf|exact C|rewrite P1, Mx; lia|lia]|].
      split; [exact Mx|]. split; [exact Bf|]. split; [rewrite P1; exact Q|exact Cm].
    + specialize (P2 Q). split; [apply mk_inv; [exact Bf|exact C|rewrite P2, Mx; exact Bd|lia]|].
      split; [exact Mx|]. split; [exact Bf|]. split; [rewrite P2; reflexivity|exact Cm].
  - destruct (new_command_insert h item I B) as (h' & E & Bf & C & Mx & Cm & P1 & P2).
    exists h'. split; [exact E|].
    destruct (hd_error_dec (h_buf h) item) as [Q|Q].
    + destruct (P1 Q) as [Q1 Q2].
      split; [apply mk_inv; [exact Bf|exact C|rewrite Q1, Mx; exact Bd|lia]|].
      split; [exact Mx|]. split; [exact Bf|]. split; [rewrite Q1; exact Q|exact Cm].
    + destruct (P2 Q) as (Q1 & _ & _ & Q4).
      split; [apply mk_inv; [exact Bf|exact C|rewrite Q1, Mx, firstn_length; lia|lia]|].
      split; [exact Mx|]. split; [exact Bf|]. split; [|exact Cm].
      rewrite Q1. destruct (h_max h); [lia|reflexivity].
Qed.

(** ** Previous / Next *)
Lemma previous_insert h line : HInv h -> h_browse h = false -> h_max h >= 1 ->
  exists h' s, previous h line = Some (s, h') /\
    h_buf h' = firstn (h_max h) (line :: h_buf h) /\
    h_cur h' = Nat.min 1 (length (h_buf h') - 1) /\ h_browse h' = true /\
    h_max h' = h_max h /\ h_cmds h' = h_cmds h /\ (h_oldest h <= h_oldest h')%Z /\
    nth_error (h_buf h') (h_cur h') = Some s /\
    view h' = lastn (h_max h) (view h ++ [(next_id h, line)]).
Proof.
  intros I B M. unfold previous. rewrite B. cbn [h_buf h_cur].
  pose proof (inv_bound h I) as Bd.
  rewrite (insert_buf h line Bd).
  set (b := firstn (h_max h) (line :: h_buf h)).
  assert (L : 1 <= length b) by (subst b; rewrite firstn_length; cbn; lia).
  assert (C : (if Nat.ltb 1 (length b) then 1 else 0) < length b) by (destruct (Nat.ltb_spec 1 (length b)); lia).
  destruct (nth_error b (if Nat.ltb 1 (length b) then 1 else 0)) as [s|] eqn:E.
  2: { apply nth_error_None in E. lia. }
  eexists _, s. split; [reflexivity|]. cbn [h_buf h_cur h_browse h_max h_cmds h_oldest].
  split; [reflexivity|]. split.
  { destruct (Nat.ltb_spec 1 (length b)); lia. }
  split; [reflexivity|]. split; [apply insert_max|]. split; [apply insert_cmds|].
  split; [apply insert_oldest|]. split; [exact E|].
  rewrite <- (insert_view h line Bd). unfold view. cbn [h_oldest h_buf].
  rewrite (insert_buf h line Bd). reflexivity.
Qed.

Lemma previous_browse h line : HInv h -> h_browse h = true ->
  exists h' s, previous h line = Some (s, h') /\
    set_nth (h_cur h) line (h_buf h) = Some (h_buf h') /\
    length (h_buf h') = length (h_buf h) /\
    h_cur h' = Nat.min (S (h_cur h)) (length (h_buf h) - 1) /\ h_browse h' = true /\
    h_max h' = h_max h /\ h_cmds h' = h_cmds h /\ h_oldest h' = h_oldest h /\
    nth_error (h_buf h') (h_cur h') = Some s.
Proof.
  intros I B. pose proof (inv_browse h I B) as C. unfold previous. rewrite B.
  destruct (set_nth_spec (h_cur h) line (h_buf h) C) as (b' & E & L & N & O). rewrite E.
  cbn [h_buf h_cur]. rewrite L.
  set (c := if Nat.eqb (h_cur h) (length (h_buf h) - 1) then h_cur h else S (h_cur h)).
  assert (Ec : c = Nat.min (S (h_cur h)) (length (h_buf h) - 1)).
  { subst c. destruct (Nat.eqb_spec (h_cur h) (length (h_buf h) - 1)); lia. }
  destruct (nth_error b' c) as [s|] eqn:En.
  2: { apply nth_error_None in En. lia. }
  eexists _, s. split; [reflexivity|]. cbn [h_buf h_cur h_browse h_max h_cmds h_oldest].
  repeat split; assumption.
Qed.

Lemma previous_inv h line : HInv h -> h_max h >= 1 ->
  exists h' s, previous h line = Some (s, h') /\ HInv h' /\ h_max h' = h_max h /\
               h_browse h' = true /\ h_cmds h' = h_cmds h.
Proof.
  intros I M. destruct (h_browse h) eqn:B.
  - destruct (previous_browse h line I B) as (h' & s & E & S1 & L & C & Bt & Mx & Cm & O & N).
    exists h', s. split; [exact E|]. pose proof (inv_bound h I). pose proof (inv_browse h I B). pose proof (inv_oldest h I).
    repeat split; try congruence; try lia.
  - destruct (previous_insert h line I B M) as (h' & s & E & S1 & C & Bt & Mx & Cm & O & N & V).
    exists h', s. split; [exact E|]. pose proof (inv_bound h I). pose proof (inv_oldest h I).
    assert (L : 1 <= length (h_buf h') <= h_max h).
    { rewrite S1, firstn_length. cbn. lia. }
    repeat split; try congruence; try lia.
Qed.

Lemma next_inv h : HInv h ->
  exists h' s, next h = Some (s, h') /\ HInv h' /\ h_max h' = h_max h /\
    h_buf h' = h_buf h /\ h_browse h' = h_browse h /\ h_oldest h' = h_oldest h /\ h_cmds h' = h_cmds h /\
    h_cur h' = h_cur h - 1 /\
    (h_cur h = 0 -> s = [] /\ h' = h) /\
    (h_cur h <> 0 -> nth_error (h_buf h) (h_cur h - 1) = Some s).
Proof.
  intro I. destruct (Nat.eq_dec (h_cur h) 0) as [C0|C0].
  - assert (E : next h = Some ([], h)).
    { unfold next. rewrite C0. destruct (h_buf h); reflexivity. }
    exists h, []. split; [exact E|]. split; [exact I|]. do 5 (split; [reflexivity|]).
    split; [lia|]. split; [intros _; split; reflexivity|]. intro; contradiction.
  - assert (B : h_browse h = true).
    { destruct (h_browse h) eqn:B; [reflexivity|]. exfalso. apply C0, I, B. }
    pose proof (inv_browse h I B) as C.
    destruct (nth_error (h_buf h) (h_cur h - 1)) as [s|] eqn:En.
    2: { apply nth_error_None in En. lia. }
    exists (mkHistory (h_max h) (h_buf h) (h_cur h - 1) (h_cmds h) (h_browse h) (h_oldest h)), s.
    split.
    { unfold next. destruct (h_buf h) as [|x b]; [cbn in C; lia|].
      destruct (h_cur h) as [|c]; [congruence|]. cbn [Nat.sub] in *. rewrite Nat.sub_0_r in *. rewrite En. reflexivity. }
    split.
    { split; cbn [h_buf h_cur h_browse h_max h_cmds h_oldest]; try apply I; [intro; lia|congruence]. }
    do 5 (split; [reflexivity|]). split; [reflexivity|]. split; [intro; contradiction|].
    intros _. reflexivity.
Qed.

Lemma forget_inv h : HInv h -> h_browse h = false -> h_buf h <> [] ->
  exists h', forget_latest h = Some h' /\ HInv h' /\ h_max h' = h_max h /\ h_buf h' = tl (h_buf h) /\
    h_browse h' = false /\ h_oldest h' = h_oldest h.
Proof.
  intros I B Hne. unfold forget_latest. destruct (h_buf h) as [|x b] eqn:E; [congruence|].
  eexists. split; [reflexivity|]. pose proof (inv_bound h I) as Bd. rewrite E in Bd. cbn in Bd.
  repeat split; cbn [h_buf h_cur h_browse h_max h_cmds h_oldest with_buf tl]; try apply I; try congruence; lia.
Qed.

Lemma hstep_inv h o : HInv h -> h_max h >= 1 ->
  exists h', hstep h o = Some h' /\ HInv h' /\ h_max h' = h_max h.
Proof.
  intros I M. destruct o as [s|s|line| |l]; cbn [hstep].
  - destruct (new_command_inv h s I M) as (h' & E & I' & Mx & _). eauto.
  - destruct (new_command_inv h s I M) as (h' & E & I' & Mx & B & H & _). rewrite E.
    destruct (forget_inv h' I' B) as (h2 & E2 & I2 & M2 & _).
    { destruct (h_buf h'); [discriminate|discriminate]. }
    exists h2. split; [exact E2|]. split; [exact I2|]. congruence.
  - destruct (previous_inv h line I M) as (h' & s & E & I' & Mx & _). rewrite E. cbn. eauto.
  - destruct (next_inv h I) as (h' & s & E & I' & Mx & _). rewrite E. cbn. eauto.
  - exists (load_commands h l). split; [reflexivity|]. split; [apply load_inv; assumption|apply load_max].
Qed.

Lemma hrun_inv os : forall h, HInv h -> h_max h >= 1 ->
  exists h', hrun h os = Some h' /\ HInv h' /\ h_max h' = h_max h.
Proof.
  induction os as [|o os IH]; intros h I M; cbn [hrun]; [eauto|].
  destruct (hstep_inv h o I M) as (h1 & E & I1 & M1). rewrite E.
  destruct (IH h1 I1 ltac:(lia)) as (h2 & E2 & I2 & M2). exists h2. split; [exact E2|]. split; [exact I2|congruence].
Qed.

Lemma reachable_inv size h : size >= 1 -> reachable size h -> HInv h /\ h_max h = size.
Proof.
  intros Hs (os & E). destruct (hrun_inv os (history_init size) (init_inv size) Hs) as (h' & E' & I' & M').
  rewrite E in E'. injection E' as <-. split; [exact I'|exact M'].
Qed.

(** Size 0: whatever is not undefined keeps the history empty. *)
Lemma hstep_bounded h o h' : length (h_buf h) <= h_max h -> hstep h o = Some h' ->
  length (h_buf h') <= h_max h' /\ h_max h' = h_max h.
Proof.
  intros Bd E.
  assert (NC : forall s h2, new_command h s = Some h2 -> length (h_buf h2) <= h_max h2 /\ h_max h2 = h_max h).
  { intros s h2. unfold new_command. cbn [h_buf h_browse h_cur].
    set (h1 := mkHistory (h_max h) (h_buf h) 0 (S (h_cmds h)) (h_browse h) (h_oldest h)).
    assert (SN : forall x, set_nth 0 s (h_buf h) = Some x -> length x = length (h_buf h)).
    { intros x. destruct (h_buf h); cbn; [discriminate|]. intro Q; injection Q as <-. reflexivity. }
    destruct (h_browse h).
    - destruct (h_buf h) as [|d [|y b]] eqn:Eb.
      + discriminate.
      + cbn. intro Q; injection Q as <-. cbn in *. lia.
      + destruct (str_eqb y s); cbn; intro Q; injection Q as <-; cbn in *; lia.
    - pose proof (insert_bounded h1 s Bd) as IB. pose proof (insert_max h1 s) as IM.
      destruct (h_buf h) as [|y b] eqn:Eb.
      + intro Q; injection Q as <-. cbn [h_buf h_max]. split; assumption.
      + destruct (str_eqb y s); intro Q; injection Q as <-; cbn [h_buf h_max]; [|split; assumption].
        rewrite <- Eb in Bd. split; [cbn; rewrite Eb in Bd; exact Bd|reflexivity]. }
  destruct o as [s|s|line| |l]; cbn [hstep] in E.
  - exact (NC s h' E).
  - destruct (new_command h s) as [h1|] eqn:E1; [|discriminate].
    destruct (NC s h1 E1) as [B1 M1]. unfold forget_latest in E.
    destruct (h_buf h1) as [|x b]; [discriminate|]. injection E as <-. cbn in *. lia.
  - unfold previous in E. destruct (h_browse h).
    + destruct (set_nth (h_cur h) line (h_buf h)) as [b|] eqn:Es; [|discriminate].
      assert (L : length b = length (h_buf h)).
      { destruct (Nat.lt_ge_cases (h_cur h) (length (h_buf h))) as [H|H].
        - destruct (set_nth_spec _ line _ H) as (b' & E' & L & _). congruence.
        - rewrite set_nth_none in Es by exact H. discriminate. }
      cbn [h_buf h_cur] in E. destruct (nth_error b _) in E; [|discriminate]. cbn in E. injection E as <-.
      cbn. lia.
    + cbn [h_buf h_cur] in E. destruct (nth_error _ _) in E; [|discriminate]. cbn in E. injection E as <-.
      cbn [h_buf h_max]. split; [apply insert_bounded, Bd|apply insert_max].
  - unfold next in E. destruct (h_buf h) as [|x b] eqn:Eb; [injection E as <-; rewrite Eb; split; [exact Bd|reflexivity]|].
    destruct (h_cur h) as [|c]; [injection E as <-; rewrite Eb; split; [exact Bd|reflexivity]|].
    destruct (nth_error (x :: b) c); [|discriminate]. injection E as <-. cbn in *. lia.
  - injection E as <-. clear NC. unfold load_commands. revert h Bd.
    induction l as [|c l IH]; intros h Bd; cbn [fold_left]; [split; [exact Bd|reflexivity]|].
    destruct (IH (insert h c) (insert_bounded h c Bd)) as [A B].
    split; [exact A|]. rewrite B. apply insert_max.
Qed.

Lemma reachable_bounded size h : reachable size h -> length (h_buf h) <= size.
Proof.
  intros (os & E).
  assert (G : forall os h0, length (h_buf h0) <= h_max h0 -> hrun h0 os = Some h ->
              length (h_buf h) <= h_max h /\ h_max h = h_max h0).
  { clear. induction os as [|o os IH]; intros h0 B E; cbn [hrun] in E.
    - injection E as <-. split; [exact B|reflexivity].
    - destruct (hstep h0 o) as [h1|] eqn:E1; [|discriminate].
      destruct (hstep_bounded h0 o h1 B E1) as [B1 M1].
      destruct (IH h1 B1 E) as [B2 M2]. split; [exact B2|congruence]. }
  destruct (G os (history_init size) (Nat.le_0_l _) E) as [B M]. cbn in M. lia.
Qed.

(** ** Identifiers *)
Lemma usub_ge a b : (b <= a)%Z -> usub a b = (a - b)%Z.
Proof. intro H. unfold usub. destruct (Z.ltb_spec a b); lia. Qed.

Lemma nth_error_rev {A} (l : list A) i : i < length l ->
  nth_error (rev l) i = nth_error l (length l - 1 - i).
Proof.
  revert i. induction l as [|x l IH] using rev_ind; intros i H; [cbn in H; lia|].
  rewrite rev_app_distr, app_length in *. cbn [rev app length] in *.
  destruct i as [|i].
  - cbn [nth_error]. rewrite nth_error_app2 by lia.
    replace (length l + 1 - 1 - 0 - length l) with 0 by lia. reflexivity.
  - cbn [nth_error]. rewrite IH by lia. rewrite nth_error_app1 by lia. f_equal. lia.
Qed.

Lemma view_in h id s : In (id, s) (view h) <->
  (h_oldest h <= id < next_id h)%Z /\ nth_error (h_buf h) (Z.to_nat (next_id h - 1 - id)) = Some s.
Proof.
  unfold view. rewrite number_in. unfold next_id. split.
  - intros [H1 H2].
    assert (L : Z.to_nat (id - h_oldest h) < length (h_buf h)).
    { rewrite <- rev_length. apply nth_error_Some. congruence. }
    split; [lia|]. rewrite nth_error_rev in H2 by exact L. rewrite <- H2. f_equal. lia.
  - intros [H1 H2]. split; [lia|]. rewrite nth_error_rev by lia. rewrite <- H2. f_equal. lia.
Qed.

Lemma at_id_found h id s : (0 <= h_oldest h)%Z -> In (id, s) (view h) -> at_id h id = AtOk s.
Proof.
  intros H0 H. apply view_in in H as [H1 H2]. unfold at_id, id_to_index.
  fold (h_size h) in *. unfold next_id in *. fold (h_size h) in *.
  rewrite !(usub_ge (h_oldest h + h_size h) 1) by (unfold h_size in *; lia).
  destruct (Z.ltb_spec id (h_oldest h)); [lia|].
  destruct (Z.ltb_spec (h_oldest h + h_size h - 1) id); [lia|]. cbn [orb].
  rewrite usub_ge by lia.
  destruct (Z.ltb_spec (h_oldest h + h_size h - 1 - id) (h_size h)); [|lia].
  rewrite H2. reflexivity.
Qed.

Lemma at_id_missing h id : (0 <= id)%Z -> (0 <= h_oldest h)%Z -> (0 < next_id h)%Z ->
  (forall s, ~ In (id, s) (view h)) -> at_id h id = AtExc.
Proof.
  intros Hid H0 Hn H. unfold at_id, id_to_index. unfold next_id in *. fold (h_size h) in *.
  rewrite usub_ge by lia.
  destruct (Z.ltb_spec id (h_oldest h)) as [L|L]; [reflexivity|].
  destruct (Z.ltb_spec (h_oldest h + h_size h - 1) id) as [L2|L2]; [reflexivity|].
  exfalso.
  destruct (nth_error (h_buf h) (Z.to_nat (next_id h - 1 - id))) as [s|] eqn:E.
  - apply (H s). apply view_in. unfold next_id in *. fold (h_size h) in *. split; [lia|exact E].
  - apply nth_error_None in E. unfold next_id, h_size in *. lia.
Qed.

Lemma at_id_ub h id : (0 <= id < 2 ^ 64)%Z -> h_oldest h = 0%Z -> h_buf h = [] -> at_id h id = AtUB.
Proof.
  intros Hid H0 Hb. unfold at_id, id_to_index, h_size. rewrite H0, Hb. cbn [length Z.of_nat].
  change (usub (0 + 0) 1) with (2 ^ 64 - 1)%Z.
  destruct (Z.ltb_spec id 0); [lia|].
  destruct (Z.ltb_spec (2 ^ 64 - 1) id); [lia|]. cbn [orb].
  rewrite usub_ge by lia.
  destruct (Z.ltb_spec (2 ^ 64 - 1 - id) 0); [lia|]. reflexivity.
Qed.

(** ** The listing *)
Lemma show_loop_spec h : (0 <= h_oldest h)%Z -> forall n, n <= length (h_buf h) ->
  show_loop h n = Some (concat (map entry_line (number (next_id h - Z.of_nat n) (rev (firstn n (h_buf h)))))).
Proof.
  intros H0. induction n as [|n IH]; intro Hn; [reflexivity|].
  cbn [show_loop]. unfold index_to_id. rewrite usub_ge by (unfold h_size; lia).
  destruct (Z.ltb_spec (h_oldest h + h_size h - 1) (Z.of_nat n)) as [L|L]; [unfold h_size in L; lia|].
  destruct (nth_error (h_buf h) n) as [s|] eqn:E; [|apply nth_error_None in E; lia].
  rewrite IH by lia. f_equal.
  assert (F : firstn (S n) (h_buf h) = firstn n (h_buf h) ++ [s]).
  { clear - E. revert n E. induction (h_buf h) as [|x b IH]; intros [|n] E; cbn in *; try discriminate.
    - injection E as ->. reflexivity.
    - rewrite (IH n E). reflexivity. }
  rewrite F, rev_app_distr. cbn [app rev]. cbn [number map concat]. rewrite usub_ge by (unfold h_size in *; lia).
  unfold entry_line at 2. cbn [fst snd]. rewrite <- !app_assoc.
  replace (next_id h - Z.of_nat (S n) + 1)%Z with (next_id h - Z.of_nat n)%Z by lia.
  replace (next_id h - Z.of_nat (S n))%Z with (h_oldest h + h_size h - 1 - Z.of_nat n)%Z
    by (unfold next_id, h_size; lia).
  reflexivity.
Qed.

Lemma show_spec h : (0 <= h_oldest h)%Z -> show h = Some (listing (view h)).
Proof.
  intro H0. unfold show. rewrite (show_loop_spec h H0 _ (le_n _)). unfold listing, view.
  rewrite firstn_all.
  replace (next_id h - Z.of_nat (length (h_buf h)))%Z with (h_oldest h) by (unfold next_id; lia).
  reflexivity.
Qed.

(** ** Loading *)
Lemma load_view cmds : forall h, length (h_buf h) <= h_max h ->
  view (load_commands h cmds) = lastn (h_max h) (view h ++ number (next_id h) cmds).
Proof.
  unfold load_commands. induction cmds as [|c cmds IH]; intros h B; cbn [fold_left number].
  - rewrite app_nil_r. rewrite lastn_all; [reflexivity|]. unfold view. rewrite number_length, rev_length. exact B.
  - rewrite IH by (apply insert_bounded; exact B). rewrite insert_max, insert_next, insert_view by exact B.
    rewrite lastn_app_lastn, <- app_assoc. reflexivity.
Qed.

(** ** Navigation *)

Definition browse_at (h : history) (b : list str) (c : nat) : Prop :=
  h_browse h = true /\ h_buf h = b /\ h_cur h = c.

Ltac ands := repeat match goal with |- _ /\ _ => split | |- browse_at _ _ _ => unfold browse_at end.

Lemma ups_browse b k : forall h c line, HInv h -> browse_at h b c -> nth_error b c = Some line ->
  exists h' s, ups h line k = Some (s, h') /\ HInv h' /\
    browse_at h' b (Nat.min (c + k) (length b - 1)) /\
    nth_error b (Nat.min (c + k) (length b - 1)) = Some s /\ h_max h' = h_max h /\ h_oldest h' = h_oldest h /\ h_cmds h' = h_cmds h.
Proof.
  induction k as [|k IH]; intros h c line I (B & Eb & Ec) Hl.
  - assert (C : c < length b) by (apply nth_error_Some; congruence).
    exists h, line. cbn [ups]. replace (Nat.min (c + 0) (length b - 1)) with c by lia.
    ands; try assumption; try reflexivity.
  - cbn [ups].
    assert (M : h_max h >= 1).
    { pose proof (inv_bound h I). pose proof (inv_browse h I B). lia. }
    destruct (previous_inv h line I M) as (h1' & s1' & E' & I1 & _).
    destruct (previous_browse h line I B) as (h1 & s & E & S1 & L & C & Bt & Mx & Cm & O & N).
    rewrite E in E'. injection E' as <- <-. rewrite E.
    rewrite Ec, Eb in S1. rewrite (set_nth_same c line b Hl) in S1. injection S1 as S1.
    rewrite Ec, Eb in C.
    destruct (IH h1 (Nat.min (S c) (length b - 1)) s I1) as (h2 & s2 & E2 & I2 & B2 & N2 & M2 & O2 & C2).
    { unfold browse_at; ands; [exact Bt|symmetry; exact S1|exact C]. }
    { rewrite <- C, S1. exact N. }
    exists h2, s2. split; [exact E2|]. split; [exact I2|].
    replace (Nat.min (c + S k) (length b - 1)) with (Nat.min (Nat.min (S c) (length b - 1) + k) (length b - 1)) by lia.
    ands; try congruence; try apply B2.
Qed.

Lemma downs_browse b k : forall h c line, HInv h -> browse_at h b c -> nth_error b c = Some line -> k <= c ->
  exists h' s, downs h line k = Some (s, h') /\ HInv h' /\ browse_at h' b (c - k) /\
    nth_error b (c - k) = Some s /\ h_max h' = h_max h /\ h_oldest h' = h_oldest h /\ h_cmds h' = h_cmds h.
Proof.
  induction k as [|k IH]; intros h c line I (B & Eb & Ec) Hl Hk.
  - exists h, line. cbn [downs]. rewrite Nat.sub_0_r. ands; try assumption; try reflexivity.
  - cbn [downs]. destruct (next_inv h I) as (h1 & s & E & I1 & Mx & Bf & Br & O & Cm & Cu & _ & N).
    rewrite E. rewrite Ec in *. rewrite Eb in *.
    destruct (IH h1 (c - 1) s I1) as (h2 & s2 & E2 & I2 & B2 & N2 & M2 & O2 & C2).
    { unfold browse_at; ands; congruence. }
    { apply N. lia. }
    { lia. }
    exists h2, s2. split; [exact E2|]. split; [exact I2|].
    replace (c - S k) with (c - 1 - k) by lia. ands; try congruence; apply B2.
Qed.

(** From the insert mode, [k >= 1] Ups. *)
Lemma ups_insert h line k : HInv h -> h_browse h = false -> h_max h >= 1 -> k >= 1 ->
  let b := firstn (h_max h) (line :: h_buf h) in
  exists h' s, ups h line k = Some (s, h') /\ HInv h' /\
    browse_at h' b (Nat.min k (length b - 1)) /\
    nth_error b (Nat.min k (length b - 1)) = Some s /\ h_max h' = h_max h /\ h_cmds h' = h_cmds h.
Proof.
  intros I B M Hk b. destruct k as [|k]; [lia|]. cbn [ups].
  destruct (previous_insert h line I B M) as (h1 & s & E & S1 & C & Bt & Mx & Cm & O & N & V).
  destruct (previous_inv h line I M) as (h1' & s1' & E' & I1 & _).
  rewrite E in E'. injection E' as <- <-. rewrite E. fold b in S1.
  destruct (ups_browse b k h1 (Nat.min 1 (length b - 1)) s I1) as (h2 & s2 & E2 & I2 & B2 & N2 & M2 & O2 & C2).
  { unfold browse_at; ands; [exact Bt|exact S1|]. rewrite C, S1. reflexivity. }
  { rewrite <- S1, <- C. exact N. }
  exists h2, s2. split; [exact E2|]. split; [exact I2|].
  replace (Nat.min (S k) (length b - 1)) with (Nat.min (Nat.min 1 (length b - 1) + k) (length b - 1)) by lia.
  ands; try congruence; apply B2.
Qed.

(** ** No repeats *)
Definition tidy (h : history) : Prop :=
  no_adjacent (if h_browse h then tl (h_buf h) else h_buf h).

Lemma no_adjacent_tl l : no_adjacent l -> no_adjacent (tl l).
Proof. destruct l as [|x [|y l]]; cbn; tauto. Qed.
Lemma no_adjacent_firstn n : forall l, no_adjacent l -> no_adjacent (firstn n l).
Proof.
  induction n as [|n IH]; intros l H; [exact I|].
  destruct l as [|x l]; [exact I|]. cbn [firstn].
  specialize (IH l). destruct l as [|y l]; [destruct n; exact I|].
  destruct H as [H1 H2]. specialize (IH H2). destruct n as [|n]; [exact I|]. cbn [firstn] in *. split; assumption.
Qed.
Lemma no_adjacent_cons x l : hd_error l <> Some x -> no_adjacent l -> no_adjacent (x :: l).
Proof. destruct l as [|y l]; cbn; [tauto|]. intros H1 H2. split; [congruence|exact H2]. Qed.

Lemma tidy_step h o h' : HInv h -> h_max h >= 1 -> tidy h -> unedited h o -> hstep h o = Some h' -> tidy h'.
Proof.
  intros I M T U E. unfold tidy in *.
  destruct o as [s|s|line| |l]; cbn [hstep unedited] in *; try contradiction.
  - destruct (h_browse h) eqn:B.
    + destruct (new_command_browse h s I B) as (d & base & h2 & Eb & E2 & Bf & C & Mx & Cm & O & P1 & P2).
      rewrite E in E2. injection E2 as <-. rewrite Bf. rewrite Eb in T. cbn [tl] in T.
      destruct (hd_error base) as [y|] eqn:Q.
      * destruct (str_dec y s) as [->|Hne].
        -- rewrite P1 by reflexivity. exact T.
        -- rewrite P2 by congruence. apply no_adjacent_cons; [rewrite Q; congruence|exact T].
      * rewrite P2 by discriminate. apply no_adjacent_cons; [rewrite Q; discriminate|exact T].
    + destruct (new_command_insert h s I B) as (h2 & E2 & Bf & C & Mx & Cm & P1 & P2).
      rewrite E in E2. injection E2 as <-. rewrite Bf.
      destruct (hd_error (h_buf h)) as [y|] eqn:Q.
      * destruct (str_dec y s) as [->|Hne].
        -- destruct (P1 eq_refl) as [-> _]. exact T.
        -- destruct P2 as (-> & _); [congruence|]. apply no_adjacent_firstn, no_adjacent_cons; [rewrite Q; congruence|exact T].
      * destruct P2 as (-> & _); [congruence|]. apply no_adjacent_firstn, no_adjacent_cons; [rewrite Q; discriminate|exact T].
  - destruct (previous h line) as [[s h2]|] eqn:E1; [|discriminate]. cbn in E. injection E as <-.
    destruct (h_browse h) eqn:B.
    + destruct (previous_browse h line I B) as (h3 & s3 & E3 & S1 & L & C & Bt & Mx & Cm & O & N).
      rewrite E1 in E3. injection E3 as <- <-. rewrite Bt.
      destruct (Nat.eq_dec (h_cur h) 0) as [Z|Z].
      * rewrite Z in S1. destruct (h_buf h) as [|x b]; [discriminate|]. cbn in S1. injection S1 as <-. exact T.
      * rewrite (set_nth_same _ _ _ (U eq_refl Z)) in S1. injection S1 as <-. exact T.
    + destruct (previous_insert h line I B M) as (h3 & s3 & E3 & S1 & C & Bt & Mx & Cm & O & N & V).
      rewrite E1 in E3. injection E3 as <- <-. rewrite Bt, S1.
      destruct (h_max h) as [|m]; [lia|]. cbn [firstn tl]. apply no_adjacent_firstn. exact T.
  - destruct (next_inv h I) as (h3 & s3 & E3 & I3 & Mx & Bf & Br & _). rewrite E3 in E. cbn in E. injection E as <-.
    rewrite Br, Bf. exact T.
Qed.

Lemma tidy_run_spec h os h' : tidy_run h os h' -> HInv h -> h_max h >= 1 -> tidy h -> tidy h'.
Proof.
  induction 1 as [h|h o h1 os h2 U E R IH]; intros I M T; [exact T|].
  destruct (hstep_inv h o I M) as (h1' & E1 & I1 & M1). rewrite E in E1. injection E1 as <-.
  apply IH; [exact I1|lia|]. exact (tidy_step h o h1 I M T U E).
Qed.

Lemma no_adjacent_rev l : no_adjacent l -> no_adjacent (rev l).
Proof.
  assert (G : forall l m, no_adjacent l -> no_adjacent m ->
    (forall x y, hd_error l = Some x -> hd_error m = Some y -> x <> y) -> no_adjacent (rev l ++ m)).
  { clear. induction l as [|x l IH]; intros m Hl Hm Hx; [exact Hm|].
    cbn [rev]. rewrite <- app_assoc. cbn [app]. apply IH.
    - destruct l; [exact I|apply Hl].
    - apply no_adjacent_cons; [|exact Hm]. intro Q. eapply Hx; [reflexivity|exact Q|reflexivity].
    - intros a b Ha Hb. cbn in Hb. injection Hb as <-. destruct l as [|y l]; [discriminate|].
      cbn in Ha. injection Ha as <-. destruct Hl as [Hl _]. congruence. }
  intro H. rewrite <- (app_nil_r (rev l)). apply G; [exact H|exact I|]. intros x y _ Q. discriminate.
Qed.

Lemma load_buf cmds : forall h, length (h_buf h) <= h_max h ->
  h_buf (load_commands h cmds) = firstn (h_max h) (rev cmds ++ h_buf h).
Proof.
  unfold load_commands. induction cmds as [|c cmds IH]; intros h B; cbn [fold_left rev app].
  - rewrite firstn_all2; [reflexivity|exact B].
  - rewrite IH by (apply insert_bounded; exact B). rewrite insert_max, insert_buf by exact B.
    rewrite <- app_assoc. cbn [app]. rewrite !firstn_app, firstn_firstn.
    replace (Nat.min (h_max h - length (rev cmds)) (h_max h)) with (h_max h - length (rev cmds)) by lia. reflexivity.
Qed.

Lemma load_tidy size cmds : no_adjacent cmds -> tidy (load_commands (history_init size) cmds).
Proof.
  intro H. unfold tidy. rewrite load_browse. cbn [h_browse history_init].
  rewrite load_buf by (cbn; lia). cbn [h_buf history_init]. rewrite app_nil_r.
  apply no_adjacent_firstn, no_adjacent_rev, H.
Qed.

(** ** What is stored on exit *)
Lemma rev_firstn_lastn {A} n (l : list A) : rev (firstn n l) = lastn n (rev l).
Proof.
  unfold lastn. rewrite rev_length.
  assert (E : rev l = rev (skipn n l) ++ rev (firstn n l)).
  { rewrite <- rev_app_distr, firstn_skipn. reflexivity. }
  rewrite E, skipn_app, skipn_all2 by (rewrite rev_length, skipn_length; lia).
  rewrite rev_length, skipn_length. replace (length l - n - (length l - n)) with 0 by lia. reflexivity.
Qed.

Lemma get_commands_spec h : HInv h ->
  get_commands h = Some (lastn (h_cmds h) (committed h)).
Proof.
  intro I. unfold get_commands, committed. destruct (h_browse h) eqn:B.
  - pose proof (inv_browse h I B) as C. destruct (h_buf h) as [|x b]; [cbn in C; lia|].
    cbn [tl length]. rewrite rev_firstn_lastn. f_equal. replace (S (length b) - 1) with (length b) by lia.
    unfold lastn. rewrite rev_length. f_equal. lia.
  - rewrite rev_firstn_lastn. f_equal. unfold lastn. rewrite rev_length. f_equal. lia.
Qed.

(** A session of pairwise-different neighbouring commands, typed without
    browsing. *)
Lemma lastn_app_ge {A} n (l m : list A) : n <= length m -> lastn n (l ++ m) = lastn n m.
Proof.
  intro H. unfold lastn. rewrite app_length, skipn_app, skipn_all2 by lia. cbn. f_equal. lia.
Qed.

Lemma session_commands cmds : forall h, HInv h -> h_max h >= 1 -> h_browse h = false ->
  no_adjacent cmds -> (forall x, hd_error cmds = Some x -> hd_error (h_buf h) <> Some x) ->
  exists h', hrun h (map ONew cmds) = Some h' /\ HInv h' /\ h_browse h' = false /\ h_max h' = h_max h /\
    h_cmds h' = h_cmds h + length cmds /\
    rev (h_buf h') = lastn (h_max h) (rev (h_buf h) ++ cmds).
Proof.
  induction cmds as [|c cmds IH]; intros h I M B Na Hd.
  - exists h. cbn [map hrun length]. rewrite app_nil_r, lastn_all by (rewrite rev_length; apply I).
    ands; try assumption; try reflexivity; lia.
  - cbn [map hrun hstep].
    destruct (new_command_insert h c I B) as (h1 & E1 & B1 & C1 & M1 & N1 & _ & P2).
    destruct (new_command_inv h c I M) as (h1' & E1' & I1 & _ & _ & H1 & _).
    rewrite E1 in E1'. injection E1' as <-. rewrite E1.
    destruct (P2 (Hd c eq_refl)) as (Q & _).
    destruct (IH h1 I1 ltac:(lia) B1) as (h2 & E2 & I2 & B2 & M2 & N2 & R2).
    { destruct cmds; [exact Logic.I|apply Na]. }
    { intros x Hx. rewrite H1. intro Q'. injection Q' as <-. destruct cmds as [|y cmds]; [discriminate|].
      cbn in Hx. injection Hx as <-. destruct Na as [Na _]. congruence. }
    exists h2. split; [exact E2|]. split; [exact I2|]. split; [exact B2|]. split; [congruence|].
    split; [cbn [length]; lia|]. rewrite R2, M1, Q, rev_firstn_lastn, lastn_app_lastn. cbn [rev].
    rewrite <- app_assoc. reflexivity.
Qed.

Lemma session_stores size loaded cmds : size >= 1 -> no_adjacent cmds ->
  (forall x, hd_error cmds = Some x -> hd_error (rev loaded) <> Some x) ->
  exists h, hrun (history_init size) (OLoad loaded :: map ONew cmds) = Some h /\
            get_commands h = Some (lastn size cmds).
Proof.
  intros Hs Na Hd. cbn [hrun hstep].
  set (h0 := load_commands (history_init size) loaded).
  assert (I0 : HInv h0) by (apply load_inv; [apply init_inv|exact Hs]).
  assert (B0 : h_browse h0 = false) by apply load_browse.
  assert (M0 : h_max h0 = size) by apply load_max.
  assert (N0 : h_cmds h0 = 0) by apply load_cmds.
  assert (F0 : h_buf h0 = firstn size (rev loaded)).
  { unfold h0. rewrite load_buf by (cbn; lia). cbn [h_buf history_init h_max]. rewrite app_nil_r. reflexivity. }
  destruct (session_commands cmds h0 I0 ltac:(lia) B0 Na) as (h & E & I1 & B1 & M1 & N1 & R1).
  { intros x Hx. rewrite F0. specialize (Hd x Hx). destruct size; [lia|]. destruct (rev loaded); [exact Hd|exact Hd]. }
  exists h. split; [exact E|]. rewrite get_commands_spec by exact I1. unfold committed. rewrite B1, R1, N1, N0, M0. cbn [Nat.add].
  f_equal. destruct (Nat.le_gt_cases size (length cmds)) as [L|L].
  - rewrite (lastn_all (length cmds)).
    + apply lastn_app_ge. exact L.
    + rewrite lastn_length. lia.
  - rewrite (lastn_all size cmds) by lia.
    unfold lastn at 2. rewrite skipn_app, app_length.
    replace (length (rev (h_buf h0)) + length cmds - size - length (rev (h_buf h0))) with 0 by lia.
    cbn [skipn]. rewrite lastn_app_ge by lia. apply lastn_all. lia.
Qed.

(** ** Statements about views *)
Lemma new_command_view h item : HInv h -> h_max h >= 1 -> h_browse h = false ->
  exists h', new_command h item = Some h' /\ h_browse h' = false /\
    ((last_text (view h) = Some item /\ view h' = view h) \/
     (last_text (view h) <> Some item /\
      view h' = lastn (h_max h) (view h ++ [(next_id h, item)]))).
Proof.
  intros I M B. rewrite last_text_view.
  destruct (new_command_insert h item I B) as (h' & E & Bf & C & Mx & Cm & P1 & P2).
  exists h'. split; [exact E|]. split; [exact Bf|].
  destruct (hd_error_dec (h_buf h) item) as [Q|Q].
  - left. split; [exact Q|]. destruct (P1 Q) as [Q1 Q2]. unfold view. rewrite Q1, Q2. reflexivity.
  - right. split; [exact Q|]. apply P2. exact Q.
Qed.

Lemma new_command_browse_view h item : HInv h -> h_browse h = true ->
  exists base id draft h', view h = base ++ [(id, draft)] /\ new_command h item = Some h' /\
    h_browse h' = false /\
    ((last_text base = Some item /\ view h' = base) \/
     (last_text base <> Some item /\ view h' = base ++ [(id, item)])).
Proof.
  intros I B.
  destruct (new_command_browse h item I B) as (d & base & h' & Eb & E & Bf & C & Mx & Cm & O & P1 & P2).
  exists (number (h_oldest h) (rev base)), (h_oldest h + Z.of_nat (length base))%Z, d, h'.
  assert (L : last_text (number (h_oldest h) (rev base)) = hd_error base).
  { unfold last_text. destruct base as [|y base]; [reflexivity|].
    cbn [rev hd_error]. rewrite number_app, rev_app_distr. reflexivity. }
  rewrite L. split; [unfold view; rewrite Eb; cbn [rev]; rewrite number_app, rev_length; reflexivity|].
  split; [exact E|]. split; [exact Bf|].
  destruct (hd_error_dec base item) as [Q|Q].
  - left. split; [exact Q|]. unfold view. rewrite (P1 Q), O. reflexivity.
  - right. split; [exact Q|]. unfold view. rewrite (P2 Q), O. cbn [rev]. rewrite number_app, rev_length. reflexivity.
Qed.

Lemma view_ids h id s : In (id, s) (view h) -> (h_oldest h <= id < next_id h)%Z.
Proof. intro H. apply view_in in H. apply H. Qed.

(** Up keeps an edit: the edited text is what Down brings back. *)
Lemma edit_kept h text : HInv h -> h_browse h = true -> h_cur h < length (h_buf h) - 1 ->
  exists s h1 h2, previous h text = Some (s, h1) /\ nth_error (h_buf h) (S (h_cur h)) = Some s /\
    next h1 = Some (text, h2).
Proof.
  intros I B C.
  destruct (previous_browse h text I B) as (h1 & s & E & S1 & L & C1 & Bt & Mx & Cm & O & N).
  pose proof (inv_browse h I B) as Cu.
  destruct (set_nth_spec (h_cur h) text (h_buf h) Cu) as (b' & E' & L' & N' & O').
  rewrite S1 in E'. injection E' as <-.
  replace (Nat.min (S (h_cur h)) (length (h_buf h) - 1)) with (S (h_cur h)) in C1 by lia.
  assert (M : h_max h >= 1) by (pose proof (inv_bound h I); lia).
  destruct (previous_inv h text I M) as (h1' & s1' & E1' & I1 & _).
  rewrite E in E1'. injection E1' as <- <-.
  destruct (next_inv h1 I1) as (h2 & s2 & E2 & _ & _ & _ & _ & _ & _ & _ & _ & P).
  exists s, h1, h2. split; [exact E|]. rewrite C1 in *. split.
  - rewrite <- (O' (S (h_cur h))) by lia. exact N.
  - rewrite E2. f_equal. f_equal. specialize (P ltac:(lia)). cbn [Nat.sub] in P. rewrite Nat.sub_0_r, N' in P. congruence.
Qed.

Lemma navigation h line k j : HInv h -> h_browse h = false -> h_max h >= 1 ->
  let b := firstn (h_max h) (line :: h_buf h) in
  1 <= k -> j <= Nat.min k (length b - 1) ->
  exists h1 s1 h2 s2, ups h line k = Some (s1, h1) /\ nth_error b (Nat.min k (length b - 1)) = Some s1 /\
    downs h1 s1 j = Some (s2, h2) /\ nth_error b (Nat.min k (length b - 1) - j) = Some s2 /\
    h_buf h2 = b.
Proof.
  intros I B M b Hk Hj.
  destruct (ups_insert h line k I B M Hk) as (h1 & s1 & E1 & I1 & B1 & N1 & M1 & C1). fold b in B1, N1.
  destruct (downs_browse b j h1 _ s1 I1 B1 N1 Hj) as (h2 & s2 & E2 & I2 & B2 & N2 & _).
  exists h1, s1, h2, s2. split; [exact E1|]. split; [exact N1|]. split; [exact E2|]. split; [exact N2|apply B2].
Qed.

(** ** The same, for reachable histories *)
Lemma r_ids_stable size h item : size >= 1 -> reachable size h -> h_browse h = false ->
  exists h', new_command h item = Some h' /\ h_browse h' = false /\
    ((last_text (view h) = Some item /\ view h' = view h) \/
     (last_text (view h) <> Some item /\
      view h' = lastn size (view h ++ [(next_id h, item)]))).
Proof.
  intros Hs Hr. destruct (reachable_inv size h Hs Hr) as [I M]. rewrite <- M in Hs |- *.
  apply new_command_view; assumption.
Qed.
Lemma r_navigation size h line k j : size >= 1 -> reachable size h -> h_browse h = false ->
  let b := firstn size (line :: h_buf h) in
  1 <= k -> j <= Nat.min k (length b - 1) ->
  exists h1 s1 h2 s2, ups h line k = Some (s1, h1) /\ nth_error b (Nat.min k (length b - 1)) = Some s1 /\
    downs h1 s1 j = Some (s2, h2) /\ nth_error b (Nat.min k (length b - 1) - j) = Some s2 /\
    h_buf h2 = b.
Proof.
  intros Hs Hr. destruct (reachable_inv size h Hs Hr) as [I M]. rewrite <- M in Hs |- *.
  intro B. apply navigation; assumption.
Qed.
Lemma r_newest size h item : size >= 1 -> reachable size h ->
  exists h', new_command h item = Some h' /\ hd_error (h_buf h') = Some item.
Proof.
  intros Hs Hr. destruct (reachable_inv size h Hs Hr) as [I M]. rewrite <- M in Hs.
  destruct (new_command_inv h item I Hs) as (h' & E & _ & _ & _ & H & _). eauto.
Qed.
Lemma r_tidy size loaded os h : size >= 1 -> no_adjacent loaded ->
  tidy_run (load_commands (history_init size) loaded) os h -> no_adjacent (committed h).
Proof.
  intros Hs Hl R. apply no_adjacent_rev.
  apply (tidy_run_spec _ os h R).
  - apply load_inv; [apply init_inv|exact Hs].
  - rewrite load_max. exact Hs.
  - apply load_tidy, Hl.
Qed.

Lemma r_safe size os : size >= 1 ->
  exists h, hrun (history_init size) os = Some h /\ show h <> None /\ get_commands h <> None.
Proof.
  intro Hs. destruct (hrun_inv os (history_init size) (init_inv size) Hs) as (h & E & I & M).
  exists h. split; [exact E|]. split.
  - rewrite (show_spec h (inv_oldest h I)). discriminate.
  - rewrite (get_commands_spec h I). discriminate.
Qed.

Lemma load_numbers size loaded : view (load_commands (history_init size) loaded) = lastn size (number 0 loaded).
Proof. rewrite load_view; [reflexivity|cbn; lia]. Qed.
