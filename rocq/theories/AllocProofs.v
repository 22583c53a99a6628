(** * Proofs about the history when memory runs out *)

From Verif Require Import Base HistoryModel HistorySpec HistoryProofs AllocModel AllocSpec.

(** ** With memory *)
Lemma new_command_ok h item :
  new_command_m true h item = match new_command h item with None => AUB | Some h' => ADone h' end.
Proof.
  unfold new_command_m, new_command, insert_m, assign_m. cbn [h_browse h_buf h_cur].
  destruct (h_browse h).
  - destruct (h_buf h) as [|x [|y b]]; cbn [set_nth option_map]; [reflexivity|reflexivity|].
    destruct (str_eqb y item); reflexivity.
  - destruct (h_buf h) as [|y b]; [reflexivity|]. destruct (str_eqb y item); reflexivity.
Qed.

Lemma previous_ok h line :
  previous_m true true h line = match previous h line with None => AUB | Some (_, h') => ADone h' end.
Proof.
  unfold previous_m, previous, insert_m, assign_m, return_m.
  destruct (h_browse h) eqn:B.
  - destruct (set_nth (h_cur h) line (h_buf h)) as [b|]; [|reflexivity].
    cbn [with_buf h_buf h_cur h_max h_cmds h_browse h_oldest]. rewrite B.
    destruct (nth_error b _); reflexivity.
  - cbn [h_buf h_cur]. destruct (nth_error (h_buf (insert h line)) _); reflexivity.
Qed.

Lemma next_ok h :
  next_m true h = match next h with None => AUB | Some (_, h') => ADone h' end.
Proof.
  unfold next_m, next, return_m. destruct (h_buf h) as [|x b]; [reflexivity|].
  destruct (h_cur h) as [|c]; [reflexivity|]. cbn [h_buf h_cur].
  destruct (nth_error (x :: b) c); reflexivity.
Qed.

Lemma load_ok l : forall ok h, (forall n, ok n = true) -> load_m ok h l = ADone (load_commands h l).
Proof.
  induction l as [|c l IH]; intros ok h A; cbn [load_m]; [reflexivity|].
  rewrite A. cbn [insert_m]. rewrite IH by (intro; apply A). reflexivity.
Qed.

Lemma hstep_ok h o ok : (forall n, ok n = true) ->
  hstep_m h o ok = match hstep h o with None => AUB | Some h' => ADone h' end.
Proof.
  intro A. destruct o as [s|s|line| |l]; cbn [hstep_m hstep]; rewrite ?A.
  - apply new_command_ok.
  - unfold bang_m. rewrite new_command_ok. destruct (new_command h s) as [h1|]; reflexivity.
  - rewrite previous_ok. destruct (previous h line) as [[s h']|]; reflexivity.
  - rewrite next_ok. destruct (next h) as [[s h']|]; reflexivity.
  - apply load_ok, A.
Qed.

Lemma hrun_ok os : forall h, (forall p n, In p os -> snd p n = true) ->
  hrun_m h os = hrun h (map fst os).
Proof.
  induction os as [|[o ok] os IH]; intros h A; cbn [hrun_m map fst hrun]; [reflexivity|].
  rewrite hstep_ok by (intro n; exact (A (o, ok) n (or_introl eq_refl))).
  destruct (hstep h o) as [h'|]; [|reflexivity]. apply IH. intros p n P. apply A. right. exact P.
Qed.

(** ** What a failure leaves *)
Definition restarted (h : history) : history :=
  mkHistory (h_max h) (h_buf h) 0 (S (h_cmds h)) (h_browse h) (h_oldest h).

Lemma new_command_either ok h item :
  new_command_m ok h item = new_command_m true h item \/
  (ok = false /\ new_command_m ok h item = AThrew (restarted h) ) .
Proof.
  destruct ok; [left; reflexivity|].
  unfold new_command_m, insert_m, assign_m, restarted. cbn [h_browse h_buf h_cur].
  destruct (h_browse h).
  - destruct (h_buf h) as [|x [|y b]]; cbn [set_nth option_map].
    + left; reflexivity.
    + right. split; reflexivity.
    + destruct (str_eqb y item); [left; reflexivity|right; split; reflexivity].
  - destruct (h_buf h) as [|y b]; [right; split; reflexivity|].
    destruct (str_eqb y item); [left; reflexivity|right; split; reflexivity].
Qed.

Lemma restarted_inv h : HInv h -> HInv (restarted h).
Proof.
  intro I. split; cbn [restarted h_buf h_max h_browse h_cur h_oldest].
  - apply I.
  - intro B. pose proof (inv_browse h I B). lia.
  - reflexivity.
  - apply I.
Qed.

(** The outcome of a step is that of the step with memory, or an exception that
    leaves one of the states below. *)
Definition left_by (h : history) (o : hop) (h' : history) : Prop :=
  match o with
  | ONew _ => h' = restarted h
  | OBang _ => h' = restarted h \/ hstep h o = Some h'
  | OUp _ => h' = h \/ hstep h o = Some h'
  | ODown => hstep h o = Some h'
  | OLoad l => exists n, n < length l /\ h' = load_commands h (firstn n l)
  end.

Lemma load_left l : forall ok h, load_m ok h l = ADone (load_commands h l) \/
  exists n, n < length l /\ load_m ok h l = AThrew (load_commands h (firstn n l)).
Proof.
  induction l as [|c l IH]; intros ok h; cbn [load_m]; [left; reflexivity|].
  destruct (ok 0); cbn [insert_m].
  - destruct (IH (fun n => ok (S n)) (insert h c)) as [->|(n & N & ->)]; [left; reflexivity|].
    right. exists (S n). split; [cbn [length]; lia|reflexivity].
  - right. exists 0. split; [cbn [length]; lia|reflexivity].
Qed.

Lemma hstep_m_cases h o ok : HInv h -> h_max h >= 1 ->
  (exists h', hstep h o = Some h' /\ hstep_m h o ok = ADone h') \/
  (exists h', left_by h o h' /\ hstep_m h o ok = AThrew h').
Proof.
  intros I M. destruct (hstep_inv h o I M) as (h0 & E0 & I0 & _).
  destruct o as [s|s|line| |l]; cbn [hstep_m left_by].
  - destruct (new_command_either (ok 0) h s) as [E|[_ E]]; rewrite E; [|eauto].
    left. rewrite new_command_ok. cbn [hstep] in *. rewrite E0. eauto.
  - unfold bang_m. destruct (new_command_either (ok 0) h s) as [E|[_ E]]; rewrite E; [|eauto].
    rewrite new_command_ok. cbn [hstep] in *.
    destruct (new_command h s) as [h1|]; [|discriminate]. rewrite E0. destruct (ok 1); eauto.
  - cbn [hstep] in *. destruct (previous h line) as [[s h']|] eqn:E; [|discriminate].
    cbn [option_map snd] in *. pose proof (previous_ok h line) as P. rewrite E in P.
    unfold previous_m in *. destruct (ok 0).
    + destruct (h_browse h).
      * destruct (assign_m true h (h_cur h) line) as [h1|h1|]; [|discriminate|discriminate].
        unfold return_m in *. destruct (nth_error _ _); [|discriminate]. injection P as <-.
        destruct (ok 1); eauto.
      * destruct (insert_m true h line) as [h1|h1|]; [|discriminate|discriminate].
        unfold return_m in *. destruct (nth_error _ _); [|discriminate]. injection P as <-.
        destruct (ok 1); eauto.
    + right. exists h. split; [left; reflexivity|].
      destruct (h_browse h); [|reflexivity].
      unfold assign_m in *. destruct (set_nth (h_cur h) line (h_buf h)); [reflexivity|discriminate].
  - cbn [hstep] in *. pose proof (next_ok h) as P.
    destruct (next h) as [[s h']|]; [|discriminate]. cbn [option_map snd] in *.
    unfold next_m in *. destruct (h_buf h) as [|x b]; [left; eauto|].
    destruct (h_cur h) as [|c]; [left; eauto|].
    unfold return_m in *. destruct (nth_error _ _); [|discriminate]. injection P as <-.
    destruct (ok 0); eauto.
  - destruct (load_left l ok h) as [E|(n & N & E)]; rewrite E; [left; exists (load_commands h l); split; reflexivity|].
    right. eexists. split; [|reflexivity]. eauto.
Qed.

Lemma left_inv h o h' : HInv h -> h_max h >= 1 -> left_by h o h' -> HInv h' /\ h_max h' = h_max h.
Proof.
  intros I M L. destruct (hstep_inv h o I M) as (h0 & E0 & I0 & M0).
  assert (G : hstep h o = Some h' -> HInv h' /\ h_max h' = h_max h).
  { intro E. rewrite E in E0. injection E0 as ->. split; assumption. }
  destruct o as [s|s|line| |l]; cbn [left_by] in L.
  - subst h'. split; [apply restarted_inv, I|reflexivity].
  - destruct L as [->|L]; [split; [apply restarted_inv, I|reflexivity]|exact (G L)].
  - destruct L as [->|L]; [split; [exact I|reflexivity]|exact (G L)].
  - exact (G L).
  - destruct L as (n & _ & ->). split; [apply load_inv; assumption|apply load_max].
Qed.

Lemma hstep_m_inv h o ok : HInv h -> h_max h >= 1 ->
  exists h', (hstep_m h o ok = ADone h' \/ hstep_m h o ok = AThrew h') /\ HInv h' /\ h_max h' = h_max h.
Proof.
  intros I M. destruct (hstep_m_cases h o ok I M) as [(h' & E & P)|(h' & L & P)].
  - destruct (hstep_inv h o I M) as (h0 & E0 & I0 & M0). rewrite E in E0. injection E0 as <-.
    exists h'. split; [left; exact P|]. split; assumption.
  - destruct (left_inv h o h' I M L) as [I' M']. exists h'. split; [right; exact P|]. split; assumption.
Qed.

Lemma hrun_m_inv os : forall h, HInv h -> h_max h >= 1 ->
  exists h', hrun_m h os = Some h' /\ HInv h' /\ h_max h' = h_max h.
Proof.
  induction os as [|[o ok] os IH]; intros h I M; cbn [hrun_m]; [eauto|].
  destruct (hstep_m_inv h o ok I M) as (h1 & [E|E] & I1 & M1); rewrite E;
    destruct (IH h1 I1 ltac:(lia)) as (h2 & E2 & I2 & M2); exists h2;
    (split; [exact E2|]; split; [exact I2|congruence]).
Qed.

Lemma reachable_m_inv size h : size >= 1 -> reachable_m size h -> HInv h /\ h_max h = size.
Proof.
  intros Hs (os & E). destruct (hrun_m_inv os (history_init size) (init_inv size) Hs) as (h' & E' & I' & M').
  rewrite E in E'. injection E' as <-. split; assumption.
Qed.

Lemma m_safe size os : size >= 1 ->
  exists h, hrun_m (history_init size) os = Some h /\ length (h_buf h) <= size /\
            show h <> None /\ get_commands h <> None.
Proof.
  intro Hs. destruct (hrun_m_inv os (history_init size) (init_inv size) Hs) as (h & E & I & M).
  exists h. split; [exact E|]. cbn [history_init h_max] in M. rewrite <- M.
  split; [apply I|]. rewrite show_spec, get_commands_spec by apply I. split; discriminate.
Qed.

(** ** Counting *)
Lemma forget_cmds h h' : forget_latest h = Some h' -> h_cmds h' = h_cmds h.
Proof. unfold forget_latest. destruct (h_buf h); [discriminate|]. intro E. injection E as <-. reflexivity. Qed.

Lemma hstep_cmds h o h' : HInv h -> h_max h >= 1 -> hstep h o = Some h' ->
  h_cmds h' = (if is_line o then 1 else 0) + h_cmds h.
Proof.
  intros I M E. destruct o as [s|s|line| |l]; cbn [hstep is_line] in *.
  - destruct (new_command_inv h s I M) as (h1 & E1 & _ & _ & _ & _ & C). rewrite E in E1. injection E1 as <-. exact C.
  - destruct (new_command_inv h s I M) as (h1 & E1 & _ & _ & _ & _ & C). rewrite E1 in E.
    apply forget_cmds in E. lia.
  - destruct (previous_inv h line I M) as (h1 & s & E1 & _ & _ & _ & C). rewrite E1 in E.
    injection E as <-. exact C.
  - destruct (next_inv h I) as (h1 & s & E1 & _ & _ & _ & _ & _ & C & _). rewrite E1 in E.
    injection E as <-. exact C.
  - injection E as <-. apply load_cmds.
Qed.

Lemma left_cmds h o h' : HInv h -> h_max h >= 1 -> left_by h o h' ->
  h_cmds h' = (if is_line o then 1 else 0) + h_cmds h.
Proof.
  intros I M L. pose proof (hstep_cmds h o h' I M) as G.
  destruct o as [s|s|line| |l]; cbn [left_by is_line] in *.
  - subst h'. reflexivity.
  - destruct L as [->|L]; [reflexivity|exact (G L)].
  - destruct L as [->|L]; [reflexivity|exact (G L)].
  - exact (G L).
  - destruct L as (n & _ & ->). apply load_cmds.
Qed.

Lemma hrun_m_cmds os : forall h h', HInv h -> h_max h >= 1 -> hrun_m h os = Some h' ->
  h_cmds h' = lines_entered (map fst os) + h_cmds h.
Proof.
  induction os as [|[o ok] os IH]; intros h h' I M E; cbn [hrun_m] in E.
  - injection E as <-. reflexivity.
  - assert (S1 : lines_entered (map fst ((o, ok) :: os)) =
                 (if is_line o then 1 else 0) + lines_entered (map fst os)).
    { unfold lines_entered. cbn [map fst filter]. destruct (is_line o); reflexivity. }
    rewrite S1. destruct (hstep_m_cases h o ok I M) as [(h1 & P & Q)|(h1 & L & Q)]; rewrite Q in E.
    + pose proof (hstep_cmds h o h1 I M P) as C.
      destruct (hstep_inv h o I M) as (h0 & E0 & I0 & M0). rewrite P in E0. injection E0 as <-.
      rewrite (IH h1 h' I0 ltac:(lia) E). lia.
    + pose proof (left_cmds h o h1 I M L) as C. destruct (left_inv h o h1 I M L) as [I1 M1].
      rewrite (IH h1 h' I1 ltac:(lia) E). lia.
Qed.

Lemma m_stored size os h : size >= 1 -> hrun_m (history_init size) os = Some h ->
  get_commands h = Some (lastn (lines_entered (map fst os)) (committed h)).
Proof.
  intros Hs E. destruct (reachable_m_inv size h Hs (ex_intro _ os E)) as [I _].
  rewrite get_commands_spec by exact I. f_equal. f_equal.
  rewrite (hrun_m_cmds os _ _ (init_inv size) Hs E). cbn [history_init h_cmds]. lia.
Qed.

(** ** Histories reached with failures are histories reached without *)
Lemma alike_refl h : alike h h.
Proof. unfold alike. auto. Qed.

Lemma alike_view h g : alike h g -> view h = view g.
Proof. intros (_ & B & _ & _ & O). unfold view. rewrite B, O. reflexivity. Qed.

Lemma alike_committed h g : alike h g -> committed h = committed g.
Proof. intros (_ & B & _ & W & _). unfold committed. rewrite B, W. reflexivity. Qed.

Lemma alike_insert h g x : alike h g -> alike (insert h x) (insert g x).
Proof.
  destruct h as [m b c n w o], g as [m' b' c' n' w' o']. unfold alike. cbn [h_max h_buf h_cur h_browse h_oldest].
  intros (<- & <- & <- & <- & <-). unfold insert. cbn [h_max h_buf h_cur h_browse h_oldest with_buf].
  destruct (Nat.ltb m (length (x :: b))); cbn; auto.
Qed.

Lemma alike_load l : forall h g, alike h g -> alike (load_commands h l) (load_commands g l).
Proof.
  induction l as [|c l IH]; intros h g A; [exact A|]. apply (IH (insert h c) (insert g c)), alike_insert, A.
Qed.

Lemma alike_new h g s h' : alike h g -> new_command h s = Some h' ->
  exists g', new_command g s = Some g' /\ alike h' g'.
Proof.
  destruct h as [m b c n w o], g as [m' b' c' n' w' o']. unfold alike. cbn [h_max h_buf h_cur h_browse h_oldest].
  intros (<- & <- & <- & <- & <-). unfold new_command. cbn [h_max h_buf h_cur h_browse h_oldest h_cmds].
  destruct w.
  - destruct b as [|x [|y b]]; cbn [set_nth option_map].
    + discriminate.
    + intro E. injection E as <-. eexists. split; [reflexivity|]. cbn. auto.
    + destruct (str_eqb y s); intro E; injection E as <-; (eexists; split; [reflexivity|]; cbn; auto).
  - pose proof (alike_insert (mkHistory m b 0 (S n) false o) (mkHistory m b 0 (S n') false o) s
                  ltac:(unfold alike; cbn; auto)) as (A1 & A2 & A3 & A4 & A5).
    destruct b as [|y b].
    + intro E. injection E as <-. eexists. split; [reflexivity|]. cbn [h_max h_buf h_cur h_browse h_oldest]. auto.
    + destruct (str_eqb y s); intro E; injection E as <-; (eexists; split; [reflexivity|]);
        cbn [h_max h_buf h_cur h_browse h_oldest]; auto.
Qed.

Lemma alike_hstep h g o h' : alike h g -> hstep h o = Some h' ->
  exists g', hstep g o = Some g' /\ alike h' g'.
Proof.
  intros A E. destruct o as [s|s|line| |l]; cbn [hstep] in *.
  - exact (alike_new h g s h' A E).
  - destruct (new_command h s) as [h1|] eqn:E1; [|discriminate].
    destruct (alike_new h g s h1 A E1) as (g1 & F1 & (A1 & A2 & A3 & A4 & A5)). rewrite F1.
    unfold forget_latest in *. rewrite <- A2. destruct (h_buf h1) as [|x b]; [discriminate|].
    injection E as <-. eexists. split; [reflexivity|]. unfold alike. cbn [with_buf h_max h_buf h_cur h_browse h_oldest].
    auto.
  - pose proof (alike_insert h g line A) as (B1 & B2 & B3 & B4 & B5).
    destruct A as (A1 & A2 & A3 & A4 & A5). unfold previous in *. rewrite <- A2, <- A3, <- A4, <- B2 in *.
    destruct (h_browse h).
    + destruct (set_nth (h_cur h) line (h_buf h)) as [b|]; [|discriminate]. cbn [h_buf h_cur] in *.
      destruct (nth_error b _); [|discriminate]. injection E as <-.
      eexists. split; [reflexivity|]. unfold alike. cbn [h_max h_buf h_cur h_browse h_oldest]. auto.
    + cbn [h_buf h_cur] in *. destruct (nth_error _ _); [|discriminate]. injection E as <-.
      eexists. split; [reflexivity|]. unfold alike. cbn [snd h_max h_buf h_cur h_browse h_oldest]. auto.
  - pose proof A as (A1 & A2 & A3 & A4 & A5). unfold next in *. rewrite <- A2, <- A3.
    destruct (h_buf h) as [|x b] eqn:Eb.
    { injection E as <-. exists g. split; [reflexivity|exact A]. }
    destruct (h_cur h) as [|c].
    { injection E as <-. exists g. split; [reflexivity|exact A]. }
    destruct (nth_error (x :: b) c); [|discriminate]. injection E as <-.
    eexists. split; [reflexivity|]. unfold alike. cbn [snd h_max h_buf h_cur h_browse h_oldest]. auto.
  - injection E as <-. eexists. split; [reflexivity|]. apply alike_load, A.
Qed.

Lemma hrun_app os : forall h ps h', hrun h os = Some h' -> hrun h (os ++ ps) = hrun h' ps.
Proof.
  induction os as [|o os IH]; intros h ps h' E; cbn [hrun app] in *; [congruence|].
  destruct (hstep h o) as [h1|]; [|discriminate]. apply IH, E.
Qed.

(** Down until the line being typed. *)
Lemma downs_to_front n : forall h, HInv h -> h_cur h = n ->
  exists h', hrun h (repeat ODown n) = Some h' /\
    h' = mkHistory (h_max h) (h_buf h) 0 (h_cmds h) (h_browse h) (h_oldest h).
Proof.
  induction n as [|n IH]; intros h I C; cbn [repeat hrun].
  - exists h. split; [reflexivity|]. destruct h. cbn in *. subst. reflexivity.
  - cbn [hstep]. destruct (next_inv h I) as (h1 & s & E1 & I1 & M1 & B1 & W1 & O1 & C1 & Cu & _).
    rewrite E1. cbn [option_map snd].
    destruct (IH h1 I1 ltac:(lia)) as (h2 & E2 & ->). eexists. split; [exact E2|].
    rewrite M1, B1, W1, O1, C1. reflexivity.
Qed.

Lemma left_alike h o h' g : HInv h -> HInv g -> left_by h o h' -> alike h g ->
  exists ps g', hrun g ps = Some g' /\ alike h' g'.
Proof.
  intros I J L A.
  assert (R : exists ps g', hrun g ps = Some g' /\ alike (restarted h) g').
  { destruct (downs_to_front (h_cur g) g J eq_refl) as (g' & E & ->). do 2 eexists. split; [exact E|].
    destruct A as (A1 & A2 & A3 & A4 & A5). unfold alike, restarted. cbn [h_max h_buf h_cur h_browse h_oldest]. auto. }
  assert (N : exists ps g', hrun g ps = Some g' /\ alike h g').
  { exists [], g. split; [reflexivity|exact A]. }
  assert (G : hstep h o = Some h' -> exists ps g', hrun g ps = Some g' /\ alike h' g').
  { intro E. destruct (alike_hstep h g o h' A E) as (g' & F & A'). exists [o], g'.
    cbn [hrun]. rewrite F. split; [reflexivity|exact A']. }
  destruct o as [s|s|line| |l]; cbn [left_by] in L.
  - subst h'. exact R.
  - destruct L as [->|L]; [exact R|exact (G L)].
  - destruct L as [->|L]; [exact N|exact (G L)].
  - exact (G L).
  - destruct L as (n & _ & ->). exists [OLoad (firstn n l)]. eexists. cbn [hrun hstep].
    split; [reflexivity|]. apply alike_load, A.
Qed.

Lemma alike_inv h g : alike h g -> HInv h -> HInv g.
Proof.
  intros (A1 & A2 & A3 & A4 & A5) I. split; rewrite <- ?A1, <- ?A2, <- ?A3, <- ?A4, <- ?A5; apply I.
Qed.

Lemma hrun_m_alike os : forall h g h', HInv h -> h_max h >= 1 -> alike h g -> hrun_m h os = Some h' ->
  exists ps g', hrun g ps = Some g' /\ alike h' g'.
Proof.
  induction os as [|[o ok] os IH]; intros h g h' I M A E; cbn [hrun_m] in E.
  - injection E as <-. exists [], g. split; [reflexivity|exact A].
  - assert (S1 : exists h1 ps g1, hrun_m h1 os = Some h' /\ HInv h1 /\ h_max h1 >= 1 /\
                   hrun g ps = Some g1 /\ alike h1 g1).
    { destruct (hstep_m_cases h o ok I M) as [(h1 & P & Q)|(h1 & L & Q)]; rewrite Q in E.
      - destruct (hstep_inv h o I M) as (h0 & E0 & I0 & M0). rewrite P in E0. injection E0 as <-.
        destruct (alike_hstep h g o h1 A P) as (g1 & F & A1). exists h1, [o], g1.
        split; [exact E|]. split; [exact I0|]. split; [lia|]. cbn [hrun]. rewrite F. split; [reflexivity|exact A1].
      - destruct (left_inv h o h1 I M L) as [I1 M1].
        destruct (left_alike h o h1 g I (alike_inv h g A I) L A) as (ps & g1 & F & A1).
        exists h1, ps, g1. split; [exact E|]. split; [exact I1|]. split; [lia|]. split; [exact F|exact A1]. }
    destruct S1 as (h1 & ps & g1 & E1 & I1 & M1 & F & A1).
    destruct (IH h1 g1 h' I1 M1 A1 E1) as (qs & g2 & F2 & A2).
    exists (ps ++ qs), g2. split; [|exact A2]. rewrite (hrun_app ps g qs g1 F). exact F2.
Qed.

Lemma m_refines size h : size >= 1 -> reachable_m size h ->
  exists g, reachable size g /\ alike h g.
Proof.
  intros Hs (os & E).
  destruct (hrun_m_alike os (history_init size) (history_init size) h (init_inv size) Hs (alike_refl _) E)
    as (ps & g & F & A).
  exists g. split; [exists ps; exact F|exact A].
Qed.

(** ** A failing command *)
Lemma m_new size h ok s h' : size >= 1 -> reachable_m size h -> new_command_m ok h s = AThrew h' ->
  view h' = view h /\ committed h' = committed h /\
  get_commands h' = Some (lastn (S (h_cmds h)) (committed h)) /\
  exists h1 h2, new_command h s = Some h1 /\ new_command h' s = Some h2 /\
    alike h2 h1 /\ h_cmds h2 = S (h_cmds h1).
Proof.
  intros Hs R E. destruct (reachable_m_inv size h Hs R) as [I M].
  assert (E' : h' = restarted h).
  { destruct (new_command_either ok h s) as [E1|[_ E1]]; rewrite E1 in E.
    - rewrite new_command_ok in E. destruct (new_command h s); discriminate.
    - injection E as <-. reflexivity. }
  subst h'. split; [reflexivity|]. split; [reflexivity|].
  split; [rewrite (get_commands_spec _ (restarted_inv h I)); reflexivity|].
  destruct (new_command_inv h s I ltac:(lia)) as (h1 & E1 & _ & _ & _ & _ & C1).
  destruct (new_command_inv (restarted h) s (restarted_inv h I) ltac:(cbn [restarted h_max]; lia))
    as (h2 & E2 & _ & _ & _ & _ & C2).
  exists h1, h2. split; [exact E1|]. split; [exact E2|]. split.
  2:{ rewrite C1, C2. reflexivity. }
  assert (F : new_command (mkHistory (h_max h) (h_buf h) 0 (h_cmds h) (h_browse h) (h_oldest h)) s = Some h1)
    by exact E1.
  destruct (alike_new (mkHistory (h_max h) (h_buf h) 0 (h_cmds h) (h_browse h) (h_oldest h)) (restarted h) s h1
              ltac:(unfold alike, restarted; cbn; auto) F) as (g & G & (A1 & A2 & A3 & A4 & A5)).
  rewrite E2 in G. injection G as <-. unfold alike. auto.
Qed.

(** A failing step in general: the state is one of those of [left_by], in terms of the interface. *)
Lemma m_up size h ok line h' : size >= 1 -> reachable_m size h ->
  hstep_m h (OUp line) ok = AThrew h' -> h' = h \/ hstep h (OUp line) = Some h'.
Proof.
  intros Hs R E. destruct (reachable_m_inv size h Hs R) as [I M].
  destruct (hstep_m_cases h (OUp line) ok I ltac:(lia)) as [(h1 & _ & P)|(h1 & L & P)]; rewrite P in E.
  - discriminate.
  - injection E as <-. exact L.
Qed.

Lemma m_down size h ok h' : size >= 1 -> reachable_m size h ->
  hstep_m h ODown ok = AThrew h' -> hstep h ODown = Some h'.
Proof.
  intros Hs R E. destruct (reachable_m_inv size h Hs R) as [I M].
  destruct (hstep_m_cases h ODown ok I ltac:(lia)) as [(h1 & _ & P)|(h1 & L & P)]; rewrite P in E.
  - discriminate.
  - injection E as <-. exact L.
Qed.

Lemma m_load size h ok l h' : size >= 1 -> reachable_m size h ->
  hstep_m h (OLoad l) ok = AThrew h' -> exists n, n < length l /\ hstep h (OLoad (firstn n l)) = Some h'.
Proof.
  intros Hs R E. destruct (reachable_m_inv size h Hs R) as [I M].
  destruct (hstep_m_cases h (OLoad l) ok I ltac:(lia)) as [(h1 & _ & P)|(h1 & (n & N & ->) & P)]; rewrite P in E.
  - discriminate.
  - injection E as <-. exists n. split; [exact N|reflexivity].
Qed.

Lemma m_up_exact size h ok line : size >= 1 -> reachable_m size h ->
  exists h1, hstep h (OUp line) = Some h1 /\
    hstep_m h (OUp line) ok = (if ok 0 then if ok 1 then ADone h1 else AThrew h1 else AThrew h).
Proof.
  intros Hs R. destruct (reachable_m_inv size h Hs R) as [I M].
  destruct (hstep_inv h (OUp line) I ltac:(lia)) as (h0 & E0 & _). exists h0. split; [exact E0|].
  cbn [hstep hstep_m] in *. destruct (previous h line) as [[s h']|] eqn:E; [|discriminate].
  cbn [option_map snd] in E0. injection E0 as <-. pose proof (previous_ok h line) as P. rewrite E in P.
  unfold previous_m in *. destruct (ok 0).
  - destruct (h_browse h).
    + destruct (assign_m true h (h_cur h) line) as [h1|h1|]; [|discriminate|discriminate].
      unfold return_m in *. destruct (nth_error _ _); [|discriminate]. injection P as <-. reflexivity.
    + destruct (insert_m true h line) as [h1|h1|]; [|discriminate|discriminate].
      unfold return_m in *. destruct (nth_error _ _); [|discriminate]. injection P as <-. reflexivity.
  - destruct (h_browse h); [|reflexivity].
    unfold assign_m in *. destruct (set_nth (h_cur h) line (h_buf h)); [reflexivity|discriminate].
Qed.

Lemma load_exact l : forall ok h n, (forall m, m < n -> ok m = true) -> ok n = false -> n < length l ->
  load_m ok h l = AThrew (load_commands h (firstn n l)).
Proof.
  induction l as [|c l IH]; intros ok h n A B N; [cbn in N; lia|]. cbn [load_m]. destruct n as [|n].
  - rewrite B. reflexivity.
  - rewrite (A 0 ltac:(lia)). cbn [insert_m]. cbn [length] in N. cbn [firstn].
    rewrite (IH (fun n => ok (S n)) (insert h c) n (fun m L => A (S m) ltac:(lia)) B ltac:(lia)). reflexivity.
Qed.
