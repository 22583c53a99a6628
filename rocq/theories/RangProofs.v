(** * Proofs about coloured output *)

From Verif Require Import Base TerminalModel RangModel RangSpec.
Open Scope nat_scope.
Open Scope list_scope.

(** ** Codes *)
Lemma padding_none f n : f_width f <= n -> padding f n = [].
Proof. intros H. unfold padding. replace (f_width f - n) with 0 by lia. reflexivity. Qed.
Lemma put_str_plain f s : f_width f <= length s -> put_str f s = s.
Proof. intros H. unfold put_str. rewrite padding_none by exact H. destruct (f_adjust f); rewrite ?app_nil_r; reflexivity. Qed.
Lemma set_color_plain f n : harmless f -> set_color f n = sgr n.
Proof.
  intros (Hb & Hp & Hw). unfold set_color, sgr. rewrite put_str_plain by exact Hw. f_equal. rewrite (put_str_plain (no_width f)) by (cbn; lia). f_equal.
  unfold put_int, number_parts. cbn [no_width f_base f_showpos f_adjust]. rewrite Hb, Hp. rewrite padding_none by (cbn; lia).
  destruct (f_adjust f); cbn [app]; rewrite ?app_nil_r; reflexivity.
Qed.

(** ** Names of terminals *)
Lemma strstr_spec t : forall s, strstr s t = true <-> exists a b, s = a ++ t ++ b.
Proof.
  induction s as [|c s IH]; cbn [strstr]; rewrite orb_true_iff, starts_with_spec.
  - split.
    + intros [(r & H)|]; [|discriminate]. exists [], r. exact H.
    + intros (a & b & H). left. symmetry in H. apply app_eq_nil in H as (-> & H). exists b. symmetry. exact H.
  - rewrite IH. split.
    + intros [(r & H)|(a & b & ->)]; [exists [], r; exact H|]. exists (c :: a), b. reflexivity.
    + intros (a & b & H). destruct a as [|x a]; [left; exists b; exact H|]. injection H as <- H. right. eauto.
Qed.
Lemma colour_term_spec t : existsb (strstr t) terms = true <-> colour_term (Some t).
Proof.
  rewrite existsb_exists. unfold colour_term. split.
  - intros (n & Hn & H). apply strstr_spec in H as (a & b & ->). exists (a ++ n ++ b), a, n, b. split; [reflexivity|]. split; [reflexivity|exact Hn].
  - intros (s & a & n & b & E & -> & Hn). injection E as ->. exists n. split; [exact Hn|]. apply strstr_spec. eauto.
Qed.

Lemma and_iff_compat' (A B C D : Prop) : (A <-> C) -> (B <-> D) -> (A /\ B <-> C /\ D).
Proof. tauto. Qed.

(** ** Statics *)
Definition known (o : option nat) (b : nat) : Prop := o = None \/ o = Some b.
Lemma known_once o b : known o b -> once o b = b.
Proof. intros [->| ->]; reflexivity. Qed.

Section Calm.
Context (out_tty err_tty : bool) (bufs : nat -> nat) (t : option str).

(** The statics and the environment are as at the start. *)
Record settled (p : prog) : Prop := mkSettled {
  se_term : pg_term p = t;
  se_result : forall r, pg_result p = Some r -> (r = true <-> colour_term t);
  se_cout : known (pg_cout p) (bufs 0); se_cerr : known (pg_cerr p) (bufs 1); se_clog : known (pg_clog p) (bufs 2);
  se_std : forall k, k < 3 -> st_buf (pg_streams p k) = bufs k }.

Lemma supports_settled p : settled p -> let (r, p') := supports_color p in
  (r = true <-> colour_term t) /\ settled p' /\ pg_streams p' = pg_streams p /\ pg_color p' = pg_color p.
Proof.
  intros H. pose proof H as [H1 H2 H3 H4 H5 H6]. unfold supports_color. destruct (pg_term p) as [s|] eqn:Ep; rewrite <- H1.
  - destruct (pg_result p) as [r|] eqn:Er.
    + rewrite H1. split; [apply H2; reflexivity|]. split; [exact H|split; reflexivity].
    + split; [apply colour_term_spec|]. split; [|split; reflexivity]. constructor; cbn; try congruence; try assumption.
      intros r Hr. injection Hr as <-. rewrite <- H1. apply colour_term_spec.
  - split; [|split; [exact H|split; reflexivity]]. split; [discriminate|]. intros (s & a & n & b & E & _). discriminate.
Qed.
Lemma terminal_settled b p : settled p -> let (r, p') := is_terminal out_tty err_tty b p in
  (r = true <-> on_terminal bufs out_tty err_tty b) /\ settled p' /\ pg_streams p' = pg_streams p /\ pg_color p' = pg_color p.
Proof.
  intros [H1 H2 H3 H4 H5 H6]. unfold is_terminal. rewrite !H6 by lia. rewrite (known_once _ _ H3), (known_once _ _ H4), (known_once _ _ H5).
  unfold on_terminal. destruct (Nat.eqb_spec b (bufs 0)) as [->|N0].
  - split; [split; [intros ->; left; auto|intros [(_ & H)|(N & _)]; [exact H|congruence]]|]. split; [|split; reflexivity].
    constructor; cbn; try assumption. right. reflexivity.
  - destruct (Nat.eqb_spec b (bufs 1)) as [->|N1].
    + split; [split; [intros ->; right; auto|intros [(N & _)|(_ & _ & H)]; [congruence|exact H]]|]. split; [|split; reflexivity].
      constructor; cbn; try assumption; right; reflexivity.
    + split; [|split; [|split; reflexivity]].
      * destruct (Nat.eqb_spec b (bufs 2)) as [->|N2].
        -- split; [intros ->; right; auto|intros [(N & _)|(_ & _ & H)]; [congruence|exact H]].
        -- split; [discriminate|]. intros [(N & _)|(_ & [N|N] & _)]; congruence.
      * constructor; cbn; try assumption; right; reflexivity.
Qed.

(** Streams changed in nothing but formatting, text, and [iword] *)
Lemma settled_upd i o p : settled p -> st_buf o = st_buf (pg_streams p i) -> settled (upd i o p).
Proof.
  intros [H1 H2 H3 H4 H5 H6] Hb. constructor; try assumption. cbn. intros k Hk. destruct (Nat.eqb_spec k i) as [->|]; [rewrite Hb; auto|auto].
Qed.
Lemma streams_upd i o p j : pg_streams (upd i o p) j = if Nat.eqb j i then o else pg_streams p j.
Proof. reflexivity. Qed.

(** What a stream looks like after more was written to it. *)
Definition wrote (o : stream) (s : str) (force : bool) (o' : stream) : Prop :=
  st_buf o' = st_buf o /\ st_force o' = force /\ st_text o' = st_text o ++ s /\
  (st_fmt o' = st_fmt o \/ st_fmt o' = no_width (st_fmt o)).
(** Writing [s] to stream [i], nothing to the others. *)
Definition effect (i : nat) (s : str) (force : bool) (p p' : prog) : Prop :=
  settled p' /\ pg_color p' = pg_color p /\ wrote (pg_streams p i) s force (pg_streams p' i) /\
  forall j, j <> i -> pg_streams p' j = pg_streams p j.
Lemma harmless_wrote o s f o' : wrote o s f o' -> harmless (st_fmt o) -> harmless (st_fmt o').
Proof. intros (_ & _ & _ & [->| ->]) H; [exact H|]. destruct H as (H1 & H2 & H3). split; [exact H1|]. split; [exact H2|cbn; lia]. Qed.
Lemma wrote_trans o s1 f1 o1 s2 f2 o2 : wrote o s1 f1 o1 -> wrote o1 s2 f2 o2 -> wrote o (s1 ++ s2) f2 o2.
Proof.
  intros (A1 & A2 & A3 & A4) (B1 & B2 & B3 & B4). split; [congruence|]. split; [exact B2|]. split; [rewrite B3, A3, app_assoc; reflexivity|].
  destruct A4 as [A4|A4], B4 as [B4|B4]; rewrite B4, A4; auto.
Qed.
Lemma effect_trans i p s1 f1 p1 s2 f2 p2 : effect i s1 f1 p p1 -> effect i s2 f2 p1 p2 -> effect i (s1 ++ s2) f2 p p2.
Proof.
  intros (A1 & A2 & A3 & A4) (B1 & B2 & B3 & B4). split; [exact B1|]. split; [congruence|]. split; [eapply wrote_trans; eassumption|].
  intros j Hj. rewrite B4 by exact Hj. auto.
Qed.
Lemma effect_same i p p' : settled p' -> pg_streams p' = pg_streams p -> pg_color p' = pg_color p ->
  effect i [] (st_force (pg_streams p i)) p p'.
Proof.
  intros H E C. split; [exact H|]. split; [exact C|]. rewrite E. split; [|auto]. split; [reflexivity|]. split; [reflexivity|]. split; [rewrite app_nil_r; reflexivity|]. left. reflexivity.
Qed.
Lemma effect_write i s p p' : settled p' -> pg_streams p' = pg_streams p -> pg_color p' = pg_color p ->
  effect i s (st_force (pg_streams p i)) p (write i s p').
Proof.
  intros H E C. unfold write. split; [apply settled_upd; [exact H|reflexivity]|]. split; [exact C|]. split.
  - rewrite streams_upd, Nat.eqb_refl, E. split; [reflexivity|]. split; [reflexivity|]. split; [reflexivity|]. right. reflexivity.
  - intros j Hj. rewrite streams_upd. destruct (Nat.eqb_spec j i); [congruence|]. rewrite E. reflexivity.
Qed.
Lemma put_color_forced i n p : settled p -> st_force (pg_streams p i) = true -> harmless (st_fmt (pg_streams p i)) ->
  effect i (sgr n) true p (put_color out_tty err_tty i n p).
Proof.
  intros H Hf Hh. unfold put_color. rewrite Hf, set_color_plain by exact Hh. rewrite <- Hf. apply effect_write; auto.
Qed.
Lemma put_color_may i n p : settled p -> harmless (st_fmt (pg_streams p i)) ->
  exists s, effect i s (st_force (pg_streams p i)) p (put_color out_tty err_tty i n p) /\
    let ok := st_force (pg_streams p i) = true \/ (colour_term t /\ on_terminal bufs out_tty err_tty (st_buf (pg_streams p i))) in
    (ok -> s = sgr n) /\ (~ ok -> s = []).
Proof.
  intros H Hh. unfold put_color. destruct (st_force (pg_streams p i)) eqn:Hf.
  - exists (sgr n). rewrite set_color_plain by exact Hh. split; [rewrite <- Hf; apply effect_write; auto|]. split; [reflexivity|]. intros N. destruct N. left. reflexivity.
  - pose proof (supports_settled p H) as Hs. destruct (supports_color p) as (r, p1). destruct Hs as (Hr & H1 & E1 & C1).
    destruct r.
    + pose proof (terminal_settled (st_buf (pg_streams p i)) p1 H1) as Ht. destruct (is_terminal out_tty err_tty (st_buf (pg_streams p i)) p1) as (r2, p2).
      destruct Ht as (Hr2 & H2 & E2 & C2). destruct r2.
      * exists (sgr n). rewrite set_color_plain by exact Hh. split; [rewrite <- Hf; apply effect_write; [exact H2|congruence|congruence]|].
        split; [reflexivity|]. intros N. destruct N. right. split; [apply Hr; reflexivity|apply Hr2; reflexivity].
      * exists []. split; [rewrite <- Hf; apply effect_same; [exact H2|congruence|congruence]|]. split; [|reflexivity].
        intros [F|(_ & F)]; [discriminate|]. apply Hr2 in F. discriminate.
    + exists []. split; [rewrite <- Hf; apply effect_same; [exact H1|congruence|congruence]|]. split; [|reflexivity].
      intros [F|(F & _)]; [discriminate|]. apply Hr in F. discriminate.
Qed.
Lemma effect_force i p : settled p -> effect i [] true p (force_color i p).
Proof.
  intros H. unfold force_color. split; [apply settled_upd; [exact H|reflexivity]|]. split; [reflexivity|]. split.
  - rewrite streams_upd, Nat.eqb_refl. split; [reflexivity|]. split; [reflexivity|]. cbn. split; [rewrite app_nil_r; reflexivity|]. left. reflexivity.
  - intros j Hj. rewrite streams_upd. destruct (Nat.eqb_spec j i); [congruence|reflexivity].
Qed.
Lemma put_mark_effect i k p : settled p -> harmless (st_fmt (pg_streams p i)) ->
  exists s f, effect i s f p (put_mark out_tty err_tty i k p) /\
    f = (st_force (pg_streams p i) || (pg_color p && match k with BeforePrompt | BeforeInput => true | _ => false end)) /\
    mark_writes (pg_color p) (st_force (pg_streams p i) = true \/ (colour_term t /\ on_terminal bufs out_tty err_tty (st_buf (pg_streams p i)))) k s.
Proof.
  intros H Hh. destruct k; unfold put_mark.
  - destruct (pg_color p) eqn:Hc.
    + pose proof (effect_force i p H) as E0. pose proof E0 as (S0 & _ & W0 & _).
      pose proof (put_color_forced i 32 _ S0 ltac:(apply W0) (harmless_wrote _ _ _ _ W0 Hh)) as E1. pose proof E1 as (S1 & _ & W1 & _).
      pose proof (put_color_forced i 1 _ S1 ltac:(apply W1) (harmless_wrote _ _ _ _ W1 (harmless_wrote _ _ _ _ W0 Hh))) as E2.
      exists (esc_code "32" ++ esc_code "1"), true. split; [|split; [rewrite orb_true_r; reflexivity|reflexivity]].
      exact (effect_trans _ _ _ _ _ _ _ _ E0 (effect_trans _ _ _ _ _ _ _ _ E1 E2)).
    + exists [], (st_force (pg_streams p i)). split; [apply effect_same; auto|]. split; [rewrite orb_false_r; reflexivity|reflexivity].
  - destruct (put_color_may i 0 p H Hh) as (s & E & M). exists s, (st_force (pg_streams p i)). split; [exact E|]. split; [rewrite andb_false_r, orb_false_r; reflexivity|exact M].
  - destruct (pg_color p) eqn:Hc.
    + pose proof (effect_force i p H) as E0. pose proof E0 as (S0 & _ & W0 & _).
      pose proof (put_color_forced i 97 _ S0 ltac:(apply W0) (harmless_wrote _ _ _ _ W0 Hh)) as E1.
      exists (esc_code "97"), true. split; [|split; [rewrite orb_true_r; reflexivity|reflexivity]].
      exact (effect_trans _ _ _ _ _ _ _ _ E0 E1).
    + exists [], (st_force (pg_streams p i)). split; [apply effect_same; auto|]. split; [rewrite orb_false_r; reflexivity|reflexivity].
  - destruct (put_color_may i 0 p H Hh) as (s & E & M). exists s, (st_force (pg_streams p i)). split; [exact E|]. split; [rewrite andb_false_r, orb_false_r; reflexivity|exact M].
Qed.

(** ** Any formatting *)
Lemma put_color_any i n p : settled p -> exists s, effect i s (st_force (pg_streams p i)) p (put_color out_tty err_tty i n p).
Proof.
  intros H. unfold put_color. destruct (st_force (pg_streams p i)) eqn:Hf.
  - eexists. rewrite <- Hf. apply effect_write; auto.
  - pose proof (supports_settled p H) as Hs. destruct (supports_color p) as (r, p1). destruct Hs as (_ & H1 & E1 & C1).
    destruct r; [|exists []; rewrite <- Hf; apply effect_same; [exact H1|congruence|congruence]].
    pose proof (terminal_settled (st_buf (pg_streams p i)) p1 H1) as Ht. destruct (is_terminal out_tty err_tty (st_buf (pg_streams p i)) p1) as (r2, p2).
    destruct Ht as (_ & H2 & E2 & C2). destruct r2.
    + eexists. rewrite <- Hf. apply effect_write; [exact H2|congruence|congruence].
    + exists []. rewrite <- Hf. apply effect_same; [exact H2|congruence|congruence].
Qed.
Lemma put_mark_any i k p : settled p -> exists s,
  effect i s (st_force (pg_streams p i) || (pg_color p && match k with BeforePrompt | BeforeInput => true | _ => false end)) p (put_mark out_tty err_tty i k p).
Proof.
  intros H. destruct k; unfold put_mark; rewrite ?andb_false_r, ?andb_true_r, ?orb_false_r; try (apply put_color_any; exact H).
  - destruct (pg_color p) eqn:Hc; rewrite ?orb_true_r, ?orb_false_r; [|exists []; apply effect_same; auto].
    pose proof (effect_force i p H) as E0. pose proof E0 as (S0 & _ & W0 & _).
    destruct (put_color_any i 32 _ S0) as (s1 & E1). pose proof E1 as (S1 & _ & W1 & _). destruct (put_color_any i 1 _ S1) as (s2 & E2).
    pose proof (effect_trans _ _ _ _ _ _ _ _ E0 (effect_trans _ _ _ _ _ _ _ _ E1 E2)) as E. eexists.
    replace true with (st_force (pg_streams (put_color out_tty err_tty i 32 (force_color i p)) i)) by (destruct W1 as (_ & -> & _); apply W0). exact E.
  - destruct (pg_color p) eqn:Hc; rewrite ?orb_true_r, ?orb_false_r; [|exists []; apply effect_same; auto].
    pose proof (effect_force i p H) as E0. pose proof E0 as (S0 & _ & W0 & _).
    destruct (put_color_any i 97 _ S0) as (s1 & E1). pose proof (effect_trans _ _ _ _ _ _ _ _ E0 E1) as E. eexists.
    replace true with (st_force (pg_streams (force_color i p) i)) by apply W0. exact E.
Qed.

(** ** Whole programs *)
Record follows (l : list ract) (p : prog) : Prop := mkFollows {
  fo_set : settled p; fo_flag : pg_color p = flag_after l;
  fo_force : forall i, st_force (pg_streams p i) = true <-> was_coloured i l;
  fo_buf : forall i, st_buf (pg_streams p i) = buf_after bufs i l }.
Lemma coloured_cons a l i : was_coloured i (a :: l) <->
  was_coloured i l \/ (exists k, a = RMark i k /\ colouring k /\ flag_after l = true).
Proof.
  split.
  - intros (l2 & k & l1 & E & H & F). destruct l2 as [|b l2]; injection E as -> ->; [right; eauto|left; exists l2, k, l1; auto].
  - intros [(l2 & k & l1 & -> & H)|(k & -> & H & F)]; [exists (a :: l2), k, l1; auto|exists [], k, l; auto].
Qed.
Lemma follows_other a l p p' : (forall i k, a <> RMark i k) -> follows l p -> settled p' -> pg_color p' = flag_after (a :: l) ->
  (forall i, st_force (pg_streams p' i) = st_force (pg_streams p i)) -> (forall i, st_buf (pg_streams p' i) = buf_after bufs i (a :: l)) ->
  follows (a :: l) p'.
Proof.
  intros Ha [H1 H2 H3 H4] Hs Hc Hf Hb. constructor; try assumption. intros i. rewrite Hf, H3, coloured_cons. split; [auto|].
  intros [H|(k & E & _)]; [exact H|]. destruct (Ha i k E).
Qed.
Lemma follows_step a l p : calm a -> follows l p -> follows (a :: l) (r_step out_tty err_tty p a).
Proof.
  intros Hc H. pose proof H as [H1 H2 H3 H4]. destruct a as [i k|b|i b|i f|i s|t']; cbn [r_step].
  - destruct (put_mark_any i k p H1) as (s & S1 & C1 & (W1 & W2 & W3 & W4) & O1). constructor.
    + exact S1.
    + rewrite C1. exact H2.
    + intros j. rewrite coloured_cons, <- H3. destruct (Nat.eq_dec j i) as [->|Hj].
      * rewrite W2, orb_true_iff, andb_true_iff, H2. split.
        -- intros [F|(F & M)]; [left; exact F|right; exists k]. split; [reflexivity|]. split; [unfold colouring; destruct k; auto; discriminate|exact F].
        -- intros [F|(k' & E & M & F)]; [left; exact F|right]. injection E as <-. split; [exact F|]. destruct M as [->| ->]; reflexivity.
      * rewrite O1 by exact Hj. split; [auto|]. intros [F|(k' & E & _)]; [exact F|]. injection E as -> _. congruence.
    + intros j. cbn [buf_after]. rewrite <- H4. destruct (Nat.eq_dec j i) as [->|Hj]; [exact W1|]. rewrite O1 by exact Hj. reflexivity.
  - apply (follows_other _ _ p); try assumption; try reflexivity; try discriminate. destruct H1. constructor; assumption.
  - cbn in Hc. apply (follows_other _ _ p); try assumption; try discriminate.
    + destruct H1 as [A1 A2 A3 A4 A5 A6]. constructor; try assumption. cbn. intros k Hk. destruct (Nat.eqb_spec k i); [lia|auto].
    + intros j. rewrite streams_upd. destruct (Nat.eqb_spec j i) as [->|]; reflexivity.
    + intros j. rewrite streams_upd. cbn [buf_after]. rewrite (Nat.eqb_sym i j). destruct (Nat.eqb_spec j i) as [->|]; [reflexivity|apply H4].
  - apply (follows_other _ _ p); try assumption; try discriminate.
    + apply settled_upd; [exact H1|reflexivity].
    + intros j. rewrite streams_upd. destruct (Nat.eqb_spec j i) as [->|]; reflexivity.
    + intros j. rewrite streams_upd. cbn [buf_after]. destruct (Nat.eqb_spec j i) as [->|]; apply H4.
  - apply (follows_other _ _ p); try assumption; try discriminate.
    + apply settled_upd; [exact H1|reflexivity].
    + intros j. unfold write. rewrite streams_upd. destruct (Nat.eqb_spec j i) as [->|]; reflexivity.
    + intros j. unfold write. rewrite streams_upd. cbn [buf_after]. destruct (Nat.eqb_spec j i) as [->|]; apply H4.
  - destruct Hc.
Qed.
Lemma follows_init : follows [] (rang_init bufs t).
Proof.
  constructor; try reflexivity.
  - constructor; cbn; auto; try (left; reflexivity). discriminate.
  - intros i. split; [discriminate|]. intros ([|] & k & l1 & E & _); discriminate.
Qed.
Lemma follows_run l : Forall calm l -> follows (rev l) (r_run out_tty err_tty l (rang_init bufs t)).
Proof.
  intros H. rewrite <- (rev_involutive l) in H. apply Forall_rev in H. rewrite rev_involutive in H. revert H.
  rewrite <- (rev_involutive l) at 3. generalize (rev l). clear l. induction l as [|a l IH]; intros H; [exact follows_init|].
  inversion H; subst. unfold r_run in *. cbn [rev]. rewrite fold_left_app. cbn [fold_left]. apply follows_step; auto.
Qed.

(** Whatever the program did before, a mark writes what it should, on its stream only. *)
Lemma marks_right l i k : Forall calm l ->
  let p := r_run out_tty err_tty l (rang_init bufs t) in
  let p' := put_mark out_tty err_tty i k p in
  harmless (st_fmt (pg_streams p i)) ->
  exists s, st_text (pg_streams p' i) = st_text (pg_streams p i) ++ s /\
    mark_writes (flag_after (rev l)) (may out_tty err_tty bufs t i (rev l)) k s /\
    forall j, j <> i -> pg_streams p' j = pg_streams p j.
Proof.
  intros Hc. cbn zeta. intros Hh. destruct (follows_run l Hc) as [H1 H2 H3 H4].
  destruct (put_mark_effect i k _ H1 Hh) as (s & f & (_ & _ & (_ & _ & W & _) & O) & _ & M).
  exists s. split; [exact W|]. split; [|exact O]. rewrite <- H2. unfold may. specialize (H3 i). specialize (H4 i).
  rewrite H4 in M. destruct k; cbn [mark_writes] in *; try exact M; rewrite <- H3; exact M.
Qed.

(** The model of TerminalModel.v, whose parameter [tty] says whether codes are shown without being forced. *)
Definition tty_of (b : nat) : bool :=
  match t with Some s => existsb (strstr s) terms | None => false end &&
  (if Nat.eqb b (bufs 0) then out_tty else if Nat.eqb b (bufs 1) then err_tty else if Nat.eqb b (bufs 2) then err_tty else false).
Lemma tty_of_spec b : tty_of b = true <-> colour_term t /\ on_terminal bufs out_tty err_tty b.
Proof.
  unfold tty_of, on_terminal. rewrite andb_true_iff. apply and_iff_compat'.
  - destruct t as [s|]; [apply colour_term_spec|]. split; [discriminate|]. intros (s & a & n & b' & E & _). discriminate.
  - destruct (Nat.eqb_spec b (bufs 0)) as [->|N0]; [tauto|]. destruct (Nat.eqb_spec b (bufs 1)) as [->|N1]; [tauto|].
    destruct (Nat.eqb_spec b (bufs 2)) as [->|N2]; [tauto|]. split; [discriminate|tauto].
Qed.
Lemma marks_model l i k : Forall calm l ->
  let p := r_run out_tty err_tty l (rang_init bufs t) in
  let p' := put_mark out_tty err_tty i k p in
  harmless (st_fmt (pg_streams p i)) ->
  let tty := tty_of (buf_after bufs i (rev l)) in
  let force := st_force (pg_streams p i) in
  let (s, force') := match k with
    | BeforePrompt => before_prompt (pg_color p) force
    | BeforeInput => before_input (pg_color p) force
    | AfterPrompt => (after_prompt tty force, force)
    | AfterInput => (after_input tty force, force)
    end in
  st_text (pg_streams p' i) = st_text (pg_streams p i) ++ s /\ st_force (pg_streams p' i) = force'.
Proof.
  intros Hc. cbn zeta. intros Hh. destruct (follows_run l Hc) as [H1 H2 H3 H4]. set (p := r_run out_tty err_tty l (rang_init bufs t)) in *.
  destruct (put_mark_effect i k p H1 Hh) as (s & f & (_ & _ & (_ & F & W & _) & _) & -> & M).
  assert (Ha : (st_force (pg_streams p i) = true \/ (colour_term t /\ on_terminal bufs out_tty err_tty (st_buf (pg_streams p i)))) <->
    st_force (pg_streams p i) || tty_of (buf_after bufs i (rev l)) = true).
  { rewrite orb_true_iff, tty_of_spec, <- H4. tauto. }
  assert (Hs : mark_writes (pg_color p) (st_force (pg_streams p i) || tty_of (buf_after bufs i (rev l)) = true) k s).
  { destruct k; cbn [mark_writes] in *; try exact M; rewrite <- Ha; exact M. }
  rewrite W, F. destruct k; cbn [mark_writes] in Hs; unfold before_prompt, before_input, after_prompt, after_input;
    rewrite ?andb_true_r, ?andb_false_r, ?orb_false_r.
  - subst s. destruct (pg_color p); rewrite ?orb_true_r, ?orb_false_r; split; reflexivity.
  - split; [|reflexivity]. f_equal. revert Hs. destruct (st_force (pg_streams p i) || tty_of (buf_after bufs i (rev l))); intros (A & B); [apply A; reflexivity|apply B; discriminate].
  - subst s. destruct (pg_color p); rewrite ?orb_true_r, ?orb_false_r; split; reflexivity.
  - split; [|reflexivity]. f_equal. revert Hs. destruct (st_force (pg_streams p i) || tty_of (buf_after bufs i (rev l))); intros (A & B); [apply A; reflexivity|apply B; discriminate].
Qed.
End Calm.

(** ** The statics are set once *)
Definition kept (p p' : prog) : Prop :=
  (forall r, pg_result p = Some r -> pg_result p' = Some r) /\ (forall b, pg_cout p = Some b -> pg_cout p' = Some b) /\
  (forall b, pg_cerr p = Some b -> pg_cerr p' = Some b) /\ (forall b, pg_clog p = Some b -> pg_clog p' = Some b).
Lemma kept_refl p : kept p p.
Proof. repeat split; auto. Qed.
Lemma kept_trans p q r : kept p q -> kept q r -> kept p r.
Proof. intros (A1 & A2 & A3 & A4) (B1 & B2 & B3 & B4). repeat split; auto. Qed.
Lemma kept_color out_tty err_tty i n p : kept p (put_color out_tty err_tty i n p).
Proof.
  unfold put_color. destruct (st_force (pg_streams p i)); [repeat split; auto|].
  assert (Hs : kept p (snd (supports_color p))).
  { unfold supports_color. destruct (pg_term p); [|apply kept_refl]. destruct (pg_result p) eqn:E; [apply kept_refl|]. repeat split; cbn; auto. rewrite E. discriminate. }
  destruct (supports_color p) as (r, p1). cbn [snd] in Hs. destruct r; [|exact Hs].
  assert (Ht : kept p1 (snd (is_terminal out_tty err_tty (st_buf (pg_streams p i)) p1))).
  { unfold is_terminal. destruct (Nat.eqb _ _); [|destruct (Nat.eqb _ _)]; cbn [snd]; repeat split; cbn; auto; intros b Hb; rewrite Hb; reflexivity. }
  destruct (is_terminal out_tty err_tty (st_buf (pg_streams p i)) p1) as (r2, p2). cbn [snd] in Ht.
  destruct r2; (eapply kept_trans; [exact Hs|]); (eapply kept_trans; [exact Ht|]); repeat split; auto.
Qed.
Lemma kept_step out_tty err_tty p a : kept p (r_step out_tty err_tty p a).
Proof.
  destruct a as [i k|b|i b|i f|i s|t]; cbn [r_step]; try (repeat split; auto; fail). destruct k; cbn [put_mark]; try apply kept_color; (destruct (pg_color p); [|apply kept_refl]).
  - eapply kept_trans; [|apply kept_color]. eapply kept_trans; [|apply kept_color]. repeat split; auto.
  - eapply kept_trans; [|apply kept_color]. repeat split; auto.
Qed.
Lemma kept_run out_tty err_tty l : forall p, kept p (r_run out_tty err_tty l p).
Proof.
  induction l as [|a l IH]; intros p; [apply kept_refl|]. unfold r_run. cbn [fold_left]. eapply kept_trans; [apply kept_step|apply IH].
Qed.

(** ** Formatting is what was set last *)
Definition like (f g : fmt) : Prop := f = g \/ f = no_width g.
Lemma like_trans f g h : like f g -> like g h -> like f h.
Proof. intros [->| ->] [->| ->]; unfold like; auto. Qed.
Definition fmts_like (p p' : prog) : Prop := forall j, like (st_fmt (pg_streams p' j)) (st_fmt (pg_streams p j)).
Lemma fmts_refl p : fmts_like p p.
Proof. intros j. left. reflexivity. Qed.
Lemma fmts_trans p q r : fmts_like p q -> fmts_like q r -> fmts_like p r.
Proof. intros A B j. exact (like_trans _ _ _ (B j) (A j)). Qed.
Lemma fmts_write i s p : fmts_like p (write i s p).
Proof. intros j. unfold write. rewrite streams_upd. destruct (Nat.eqb_spec j i) as [->|]; [right|left]; reflexivity. Qed.
Lemma fmts_color out_tty err_tty i n p : fmts_like p (put_color out_tty err_tty i n p).
Proof.
  unfold put_color. destruct (st_force (pg_streams p i)); [apply fmts_write|].
  assert (E1 : pg_streams (snd (supports_color p)) = pg_streams p) by (unfold supports_color; destruct (pg_term p); [destruct (pg_result p)|]; reflexivity).
  destruct (supports_color p) as (r, p1). cbn [snd] in E1. assert (F1 : fmts_like p p1) by (intros j; left; rewrite E1; reflexivity).
  destruct r; [|exact F1].
  assert (E2 : pg_streams (snd (is_terminal out_tty err_tty (st_buf (pg_streams p i)) p1)) = pg_streams p1)
    by (unfold is_terminal; destruct (Nat.eqb _ _); [|destruct (Nat.eqb _ _)]; reflexivity).
  destruct (is_terminal out_tty err_tty (st_buf (pg_streams p i)) p1) as (r2, p2). cbn [snd] in E2.
  assert (F2 : fmts_like p p2) by (intros j; left; rewrite E2, E1; reflexivity).
  destruct r2; [|exact F2]. exact (fmts_trans _ _ _ F2 (fmts_write _ _ _)).
Qed.
Lemma fmts_force i p : fmts_like p (force_color i p).
Proof. intros j. unfold force_color. rewrite streams_upd. destruct (Nat.eqb_spec j i) as [->|]; left; reflexivity. Qed.
Lemma fmts_mark out_tty err_tty i k p : fmts_like p (put_mark out_tty err_tty i k p).
Proof.
  destruct k; cbn [put_mark]; try apply fmts_color; (destruct (pg_color p); [|apply fmts_refl]).
  - exact (fmts_trans _ _ _ (fmts_force i p) (fmts_trans _ _ _ (fmts_color out_tty err_tty i 32 _) (fmts_color out_tty err_tty i 1 _))).
  - exact (fmts_trans _ _ _ (fmts_force i p) (fmts_color out_tty err_tty i 97 _)).
Qed.
Lemma fmt_last_set out_tty err_tty bufs t l i :
  up_to_width (st_fmt (pg_streams (r_run out_tty err_tty l (rang_init bufs t)) i)) (fmt_after i (rev l)).
Proof.
  change up_to_width with like.
  rewrite <- (rev_involutive l) at 1. generalize (rev l). clear l. induction l as [|a l IH]; [left; reflexivity|].
  unfold r_run in *. cbn [rev]. rewrite fold_left_app. cbn [fold_left]. set (p := fold_left _ _ _) in *.
  destruct a as [j k|b|j b|j f|j s|t']; cbn [r_step fmt_after].
  - exact (like_trans _ _ _ (fmts_mark _ _ _ _ _ _) IH).
  - exact IH.
  - cbn zeta. rewrite streams_upd. destruct (Nat.eqb_spec i j) as [->|]; exact IH.
  - cbn zeta. rewrite streams_upd, (Nat.eqb_sym j i). destruct (Nat.eqb_spec i j) as [->|]; [left; reflexivity|exact IH].
  - exact (like_trans _ _ _ (fmts_write _ _ _ _) IH).
  - exact IH.
Qed.
