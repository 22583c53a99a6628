(** * Proofs about the example asyncsession.cpp *)

From Verif Require Import Base FromStringModel FromStringSpec FromStringProofs HistoryModel StorageModel TerminalModel MenuModel SessionModel SessionSpec FileSpec FileProofs
  ExampleModel ExampleSpec ExampleProofs AsyncModel AsyncSpec AsyncProofs AppModel AppSpec.
Open Scope nat_scope.
Open Scope list_scope.

Section App.
Context (P : platform).
Hypothesis Hstrict : strict P = false.
Context (fuel : nat) (tty : bool).
Notation E := (ap_env P).
Notation step := (ap_step P (S fuel) tty).
Notation run := (ap_run P (S fuel) tty).
Notation goes := (as_step E (S fuel) tty ex_color).

Lemma app_line line s w : like s w -> ok s -> readable P line ->
  (fresh s -> forall ws, words line ws -> ~ is_recall ws) ->
  continues s line w (feed E (S fuel) line w) \/ ends [closing] [goodbye] line w (feed E (S fuel) line w).
Proof.
  exact (feed_line P Hstrict ap_hook _ [closing] [goodbye] (fun _ _ => eq_refl) (fun _ _ => eq_refl)
    (conj eq_refl (conj eq_refl (conj eq_refl eq_refl))) fuel line s w).
Qed.

(** Lines that do not end the program. *)
Inductive chain : state -> list str -> str -> state -> Prop :=
| c_nil s : chain s [] [] s
| c_snoc s ls o s1 line text s2 : chain s ls o s1 -> says (prompted s1) line text s2 ->
    chain s (ls ++ [line]) (o ++ shown_prompt tty s1 ++ text) s2.
Lemma chain_talk s ls o s1 : chain s ls o s1 -> forall ms r e, talk tty s1 ms r e -> talk tty s (ls ++ ms) (o ++ r) e.
Proof.
  induction 1 as [s|s ls o s1 line text s2 H IH Hs]; intros ms r e Ht; [exact Ht|].
  rewrite <- !app_assoc. apply IH. cbn. eapply t_line; eassumption.
Qed.

Lemma hooked_stopped i tr : hooked KSesExit i tr <> 0 -> ap_stopped tr = true.
Proof.
  induction tr as [|e tr IH]; [cbn; congruence|]. intros H. destruct e; try exact (IH H). destruct k; try (apply IH; intros H'; apply H; rewrite <- H'; unfold hooked; cbn; rewrite ?andb_false_r; reflexivity).
  reflexivity.
Qed.
Lemma stopped_hooked tr : ap_stopped tr = true -> exists i, hooked KSesExit i tr <> 0.
Proof.
  induction tr as [|e tr IH]; [discriminate|]. cbn. intros H.
  assert (Hmore : forall i, hooked KSesExit i tr <= hooked KSesExit i (e :: tr)).
  { intros i. change (e :: tr) with ([e] ++ tr). rewrite hooked_app. lia. }
  assert (Hrest : ap_stopped tr = true -> exists i, hooked KSesExit i (e :: tr) <> 0).
  { intros Hr. destruct (IH Hr) as (i & Hi). exists i. specialize (Hmore i). lia. }
  destruct e; try exact (Hrest H). destruct k; try exact (Hrest H).
  exists sid. unfold hooked. cbn [filter]. rewrite Nat.eqb_refl. discriminate.
Qed.
Lemma not_stopped tr : (forall i, hooked KSesExit i tr = 0) -> ap_stopped tr = false.
Proof. intros H. destruct (ap_stopped tr) eqn:Hs; [|reflexivity]. destruct (stopped_hooked tr Hs) as (i & Hi). specialize (H i). lia. Qed.

(** What holds of a session whose program runs, when the bytes [ds] were read. *)
Definition holds (ds : str) (s : asess) : Prop :=
  exists fed waiting rest o st, lines_of ds (fed ++ waiting) rest /\ chain start fed o st /\
    shown (w_trace (as_world s)) = o ++ shown_prompt tty st /\ like (prompted st) (as_world s) /\ ok st /\ (fresh st -> Forall (fun l => words l []) fed) /\
    as_force s = s_codes (prompted st) /\ (forall i, hooked KSesExit i (w_trace (as_world s)) = 0) /\ as_alive s = true /\
    match as_pend s with
    | PdNone => waiting = []
    | PdDone (AFound n) => exists l ls, waiting = l :: ls /\ as_buf s = text waiting ++ rest /\ n = S (length l)
    | _ => waiting = [] /\ as_buf s = rest
    end.
(** How it ended. *)
Definition ended (ds : str) (s : asess) : Prop :=
  exists fed waiting rest o, lines_of ds (fed ++ waiting) rest /\ talk tty start fed o true /\ shown (w_trace (as_world s)) = o.
Definition fits (ds : str) (p : aprog) : Prop :=
  match p with PRuns s => holds ds s | PReturned c s => c = 0%Z /\ ended ds s | _ => False end.

(** Blank lines do not count. *)
Lemma recall_blank a b : Forall (fun l => words l []) a -> recall_first b -> recall_first (a ++ b).
Proof. induction 1 as [|l a Hl H IH]; intros Hb; [exact Hb|]. cbn. right. auto. Qed.
Lemma recall_more a b : recall_first a -> recall_first (a ++ b).
Proof. induction a as [|l a IH]; [intros []|]. cbn. intros [H|(Hl & H)]; [left; exact H|right; auto]. Qed.

Lemma waits s fed waiting rest : Forall (fun l => ~ In "010"%char l) (fed ++ waiting) -> ~ In "010"%char rest -> as_buf s = text waiting ++ rest -> as_pend s = look (as_buf s) ->
  match as_pend s with
  | PdNone => waiting = []
  | PdDone (AFound n) => exists l ls, waiting = l :: ls /\ as_buf s = text waiting ++ rest /\ n = S (length l)
  | _ => waiting = [] /\ as_buf s = rest
  end.
Proof.
  intros Hl Hr Hb Hp. apply Forall_app in Hl as (_ & Hw).
  assert (Hlo : lines_of (as_buf s) waiting rest) by (split; [exact Hb|split; assumption]). rewrite Hp, (look_lines _ _ _ Hlo).
  destruct waiting as [|l ls]; [split; [reflexivity|exact Hb]|]. exists l, ls. auto.
Qed.
Definition new_bytes (i : apinput) (s : asess) : str := match i with NBytes c => match as_pend s with PdWait => c | _ => [] end | _ => [] end.
Definition allowed (ds : str) : Prop := readable P ds /\ forall ls rest, lines_of ds ls rest -> ~ recall_first ls.
Lemma lines_more ds ls rest x ls' rest' : lines_of ds ls rest -> lines_of (ds ++ x) ls' rest' -> exists ms, ls' = ls ++ ms.
Proof.
  intros (-> & Hl & Hr) H'. destruct (lines_exist (rest ++ x)) as (ms & r2 & Hm1 & Hm2 & Hm3). exists ms.
  apply (lines_unique _ _ _ H' (ls ++ ms) r2). split; [|split; [apply Forall_app; split; assumption|exact Hm3]].
  rewrite <- app_assoc, Hm1, text_app, app_assoc. reflexivity.
Qed.
Lemma allowed_less ds x : allowed (ds ++ x) -> allowed ds.
Proof.
  intros (Hr & Hn). split.
  - destruct Hr as [Hr|Hr]; [left; exact Hr|right]. apply Forall_app in Hr as (Hr & _). exact Hr.
  - intros ls rest Hl Hrec. destruct (lines_exist (ds ++ x)) as (ls' & rest' & Hl'). destruct (lines_more _ _ _ _ _ _ Hl Hl') as (ms & ->).
    apply (Hn _ _ Hl'). apply recall_more, Hrec.
Qed.

Lemma runs_step i ds s : holds ds s -> allowed (ds ++ new_bytes i s) -> fits (ds ++ new_bytes i s) (step i (PRuns s)).
Proof.
  intros (fed & waiting & rest & o & st & Hd & Hch & Hsh & Hlike & Hok & Hfr & Hforce & Hhk & Hal & H) (Hread & Hrec).
  pose proof Hd as (Hds & Hl & Hr). pose proof Hl as Hl'. apply Forall_app in Hl' as (Hlf & Hlw).
  assert (Hrun : forall s', as_world s' = as_world s -> forall ds', holds ds' s' -> fits ds' (ap_after (AOk s'))).
  { intros s' Hw ds' Hs'. cbn [ap_after]. rewrite Hw, (not_stopped _ Hhk). exact Hs'. }
  cbn [ap_step]. destruct i as [chunk| |]; cbn [ap_input as_step new_bytes] in *.
  - destruct (as_pend s) as [| |r] eqn:Hp.
    2:{ apply Hrun; [reflexivity|]. destruct H as (-> & Hb). rewrite app_nil_r in Hds. destruct (lines_exist (rest ++ chunk)) as (ls & rest' & H1 & H2 & H3).
        exists fed, ls, rest', o, st. split; [split; [|split; [apply Forall_app; split; assumption|exact H3]]|].
        { rewrite Hds, <- app_assoc, H1, app_assoc, text_app. reflexivity. }
        do 8 (split; [assumption|]). apply (waits _ fed); [apply Forall_app; split; assumption|exact H3| |reflexivity].
        cbn. rewrite Hb. exact H1. }
    all: rewrite app_nil_r; apply Hrun; [reflexivity|]; exists fed, waiting, rest, o, st; rewrite Hp; do 9 (split; [assumption|]); assumption.
  - rewrite app_nil_r. destruct (as_pend s) as [| |r] eqn:Hp; (apply Hrun; [reflexivity|]); exists fed, waiting, rest, o, st; do 9 (split; [assumption|]); rewrite ?Hp; exact H.
  - rewrite app_nil_r in *. destruct (as_pend s) as [| |r] eqn:Hp; try (apply Hrun; [reflexivity|]; exists fed, waiting, rest, o, st; rewrite Hp; do 9 (split; [assumption|]); assumption).
    rewrite Hal. destruct r as [n| |]; cbn [new_line];
      try (apply Hrun; [reflexivity|]; destruct H as (-> & Hb); exists fed, [], rest, o, st; do 9 (split; [assumption|]); reflexivity).
    destruct H as (l & ls & -> & Hb & ->). cbn [set_pend as_buf]. rewrite Hb.
    replace (firstn (S (length l) - 1) (text (l :: ls) ++ rest)) with l.
    2:{ cbn [map concat Nat.sub]. rewrite Nat.sub_0_r, <- !app_assoc, firstn_app, Nat.sub_diag, firstn_all. cbn. rewrite app_nil_r. reflexivity. }
    replace (skipn (S (length l)) (text (l :: ls) ++ rest)) with (text ls ++ rest).
    2:{ cbn [map concat]. rewrite <- !app_assoc. replace (S (length l)) with (length (l ++ nl)) by (rewrite app_length; cbn; lia).
        rewrite (app_assoc l nl), skipn_app, skipn_all, Nat.sub_diag. reflexivity. }
    unfold as_feed. cbn [set_buf set_pend as_world as_force as_buf as_pend as_open as_alive].
    assert (Hrl : readable P l).
    { pose proof (lines_readable P ds _ rest Hd Hread) as Hf. rewrite Forall_forall in Hf. apply Hf. apply in_or_app. right. left. reflexivity. }
    assert (Hd2 : lines_of ds ((fed ++ [l]) ++ ls) rest) by (rewrite <- app_assoc; exact Hd).
    destruct (app_line l (prompted st) (as_world s) Hlike Hok Hrl) as [Hc|He].
    { intros Hfs ws Hw Hrc. apply (Hrec _ _ Hd). apply recall_blank; [apply Hfr, Hfs|]. cbn. left. eauto. }
    + destruct Hc as (txt & st' & w' & Hsays & -> & Hlk & Hok' & Hfr' & Hsh' & Hhk' & Hsid). cbn [a_bind].
      assert (Hcodes : s_codes (prompted st) = s_codes st') by (destruct Hsays; reflexivity).
      unfold as_read. cbn [as_world as_force as_buf as_open as_alive]. rewrite Hforce, Hcodes, (prompt_like tty st' w' Hlk).
      destruct (out_like (shown_prompt tty st') st' w' Hlk) as (Hlk2 & Hsh2 & Hhk2 & _).
      assert (Hno : forall i, hooked KSesExit i (w_trace (out (shown_prompt tty st') w')) = 0).
      { intros i. rewrite Hhk2, Hhk'. apply Hhk. }
      cbn [ap_after as_world]. rewrite (not_stopped _ Hno).
      exists (fed ++ [l]), ls, rest, (o ++ shown_prompt tty st ++ txt), st'. split; [exact Hd2|]. split; [eapply c_snoc; eassumption|].
      cbn [as_world as_force as_alive as_pend as_buf]. split; [rewrite Hsh2, Hsh', Hsh, <- !app_assoc; reflexivity|]. split; [exact Hlk2|]. split; [exact Hok'|].
      split. { intros Hx. destruct (Hfr' Hx) as (Hx' & Hb'). apply Forall_app. split; [apply Hfr, Hx'|]. constructor; [exact Hb'|constructor]. }
      split; [reflexivity|]. split; [exact Hno|]. split; [exact Hal|].
      set (s2 := mkAs (out (shown_prompt tty st') w') (s_codes (prompted st')) (text ls ++ rest) (look (text ls ++ rest)) (as_open s) true).
      pose proof (waits s2 fed ls rest) as Hws. cbn [s2 as_buf as_pend] in Hws. apply Hws; try reflexivity; [|exact Hr].
      apply Forall_app. split; [exact Hlf|]. inversion Hlw; assumption.
    + destruct He as (Hw & w' & -> & Hsh' & Hk & Hx). cbn [a_bind]. unfold as_read. cbn [as_world as_force as_buf as_open as_alive].
      unfold prompt, prompt_text. rewrite Hx. cbn [ap_after as_world].
      assert (Hst : ap_stopped (w_trace (out [] w')) = true).
      { apply (hooked_stopped (w_sid (as_world s))). change (w_trace (out [] w')) with (w_trace w' ++ [EvOut (w_sid w') []]). rewrite hooked_app, Hk. discriminate. }
      rewrite Hst. split; [reflexivity|].
      exists (fed ++ [l]), ls, rest, (o ++ shown_prompt tty st ++ closing ++ goodbye). split; [exact Hd2|]. split; [eapply chain_talk; [exact Hch|apply t_exit, Hw]|].
      cbn [as_world]. change (w_trace (out [] w')) with (w_trace w' ++ [EvOut (w_sid w') []]). rewrite shown_app, Hsh', Hsh. cbn [shown flat_map concat].
      rewrite !app_nil_r, <- !app_assoc. reflexivity.
Qed.

(** ** Runs *)
Lemma fits_step i ds p : fits ds p -> allowed (ds ++ match p with PRuns s => new_bytes i s | _ => [] end) ->
  fits (ds ++ match p with PRuns s => new_bytes i s | _ => [] end) (step i p).
Proof. destruct p as [s|c s| |]; cbn [fits]; intros H; [apply runs_step, H| |destruct H|destruct H]. intros _. rewrite app_nil_r. exact H. Qed.
Lemma fits_run is : forall ds p, fits ds p -> allowed (ds ++ bytes_read P (S fuel) tty is p) -> fits (ds ++ bytes_read P (S fuel) tty is p) (run is p).
Proof.
  induction is as [|i is IH]; intros ds p H Hal; cbn [bytes_read ap_run] in *; [rewrite app_nil_r; exact H|].
  assert (Hnew : match i, p with NBytes c, PRuns s => match as_pend s with PdWait => c | _ => [] end | _, _ => [] end
    = match p with PRuns s => new_bytes i s | _ => [] end) by (destruct i, p; reflexivity).
  rewrite Hnew, app_assoc in *. apply IH; [|exact Hal]. apply fits_step; [exact H|]. eapply allowed_less, Hal.
Qed.
Definition began : aprog := ap_after (as_start tty ex_color 0 ex_root 21 (StVolatile 1000 []) []).
Lemma began_is : exists s, began = PRuns s /\ holds [] s.
Proof.
  unfold began, as_start, as_read. cbn [as_world as_force as_buf as_open as_alive].
  set (w0 := open_session 0 1 ex_root 21 (StVolatile 1000 []) []).
  assert (Hl : like start w0) by (split; [reflexivity|]; split; [reflexivity|]; split; [reflexivity|]; split; [reflexivity|]; exists 0, 0; reflexivity).
  change false with (s_codes start) at 1. rewrite (prompt_like tty start w0 Hl). cbn [ap_after as_world].
  destruct (out_like (shown_prompt tty start) start w0 Hl) as (Hl' & Hsh & Hhk & _).
  assert (Hno : forall i, hooked KSesExit i (w_trace (out (shown_prompt tty start) w0)) = 0) by (intros i; rewrite Hhk; reflexivity).
  rewrite (not_stopped _ Hno). eexists. split; [reflexivity|]. exists [], [], [], [], start.
  split; [split; [reflexivity|split; [constructor|intros []]]|]. split; [apply c_nil|]. split; [exact Hsh|]. split; [exact Hl'|].
  split; [split; [reflexivity|intros l ws Hx; discriminate]|]. split; [intros _; constructor|]. split; [reflexivity|]. split; [exact Hno|]. split; [reflexivity|].
  split; reflexivity.
Qed.
Theorem app_program is ls rest : let ds := bytes_read P (S fuel) tty is began in readable P ds -> lines_of ds ls rest -> ~ recall_first ls ->
  exists fed waiting o e, ls = fed ++ waiting /\ talk tty start fed o e /\ written (ap_main P (S fuel) tty is) = Some o /\
    match ap_main P (S fuel) tty is with
    | PRuns s => e = false /\ (settled (PRuns s) -> waiting = [])
    | PReturned c _ => e = true /\ c = 0%Z
    | _ => False
    end.
Proof.
  cbn zeta. intros Hr Hl Hn. destruct began_is as (s0 & Hb & Hs0).
  assert (Hal : allowed (bytes_read P (S fuel) tty is began)).
  { split; [exact Hr|]. intros ls' rest' Hl'. rewrite (lines_unique _ _ _ Hl' _ _ Hl). exact Hn. }
  assert (Hf : fits (bytes_read P (S fuel) tty is began) (ap_main P (S fuel) tty is)).
  { change (ap_main P (S fuel) tty is) with (run is began). apply (fits_run is [] began); [rewrite Hb; exact Hs0|exact Hal]. }
  destruct (ap_main P (S fuel) tty is) as [s|c s| |]; cbn [fits] in Hf; try contradiction.
  - destruct Hf as (fed & waiting & rest' & o & st & Hd & Hch & Hsh & _ & _ & _ & _ & _ & _ & H). exists fed, waiting, (o ++ shown_prompt tty st), false.
    split; [exact (lines_unique _ _ _ Hl _ _ Hd)|]. split; [rewrite <- (app_nil_r fed); eapply chain_talk; [exact Hch|apply t_wait]|].
    split; [cbn; rewrite Hsh; reflexivity|]. split; [reflexivity|]. cbn [settled]. destruct (as_pend s) as [| |r]; intros Hq; [exact H|apply H|destruct Hq].
  - destruct Hf as (-> & fed & waiting & rest' & o & Hd & Ht & Hsh). exists fed, waiting, o, true.
    split; [exact (lines_unique _ _ _ Hl _ _ Hd)|]. split; [exact Ht|]. split; [cbn; rewrite Hsh; reflexivity|]. auto.
Qed.
End App.

Lemma talk_unique tty s ls o e : talk tty s ls o e -> forall o' e', talk tty s ls o' e' -> o = o' /\ e = e'.
Proof.
  induction 1 as [s|s line A|s line ls t r rest e A B IH]; intros o' e' H'; inversion H' as [|? ? A'|? ? ? t' r' rest' e2 A' B']; subst; try (split; reflexivity).
  - exfalso. eapply says_not_exit; eassumption.
  - exfalso. eapply says_not_exit; eassumption.
  - destruct (says_unique _ _ _ _ _ _ A A') as (-> & ->). destruct (IH _ _ B') as (-> & ->). split; reflexivity.
Qed.
Lemma talk_stops tty s a o t : talk tty s a o t -> t = true -> forall b o' e, talk tty s (a ++ b) o' e -> b = [].
Proof.
  induction 1 as [s|s line A|s line ls t' r rest e A B IH]; intros Ht b o' e' H'; [discriminate| |].
  - inversion H' as [|? ? A'|? ? ? t' r' rest' e2 A' B']; subst; [reflexivity|]. exfalso. eapply says_not_exit; eassumption.
  - inversion H' as [|? ? A'|? ? ? t2 r2 rest' e2 A' B']; subst.
    + exfalso. eapply says_not_exit; eassumption.
    + destruct (says_unique _ _ _ _ _ _ A A') as (<- & <-). exact (IH eq_refl _ _ _ B').
Qed.
Lemma talk_waits tty s ls o e : talk tty s ls o e -> e = false -> forall line, In line ls -> ~ words line [lit "exit"].
Proof.
  induction 1 as [s|s line A|s line ls t' r rest e A B IH]; intros Ht l Hin; [destruct Hin|discriminate|].
  destruct Hin as [<-|Hin]; [eapply says_not_exit; exact A|exact (IH Ht l Hin)].
Qed.

Section Live.
Context (P : platform).
Hypothesis Hstrict : strict P = false.
Context (fuel : nat) (tty : bool).
Notation step := (ap_step P (S fuel) tty).
Notation run := (ap_run P (S fuel) tty).
Notation read := (bytes_read P (S fuel) tty).
Notation main := (ap_main P (S fuel) tty).

Lemma run_app a : forall b p, run (a ++ b) p = run b (run a p).
Proof. induction a as [|i a IH]; intros b p; [reflexivity|]. cbn. apply IH. Qed.
Lemma read_app a : forall b p, read (a ++ b) p = read a p ++ read b (run a p).
Proof. induction a as [|i a IH]; intros b p; [reflexivity|]. cbn [app bytes_read ap_run]. rewrite IH, app_assoc. reflexivity. Qed.
Lemma read_runs n : forall p, read (repeat NRun n) p = [].
Proof. induction n as [|n IH]; intros p; [reflexivity|]. cbn. apply IH. Qed.

Definition line_ready (s : asess) : option nat :=
  match as_pend s with PdDone (AFound _) => Some (length (as_buf s)) | _ => None end.
(** Handlers are run to the end: the buffer gets shorter with each line. *)
Lemma settles n : forall ds s, holds tty ds s -> allowed P ds -> length (as_buf s) < n -> exists m, settled (run (repeat NRun m) (PRuns s)).
Proof.
  induction n as [|n IH]; intros ds s H Hal Hn; [lia|].
  pose proof (runs_step P Hstrict fuel tty NRun ds s H) as Hs. cbn [new_bytes] in Hs. rewrite app_nil_r in Hs. specialize (Hs Hal).
  destruct H as (fed & waiting & rest & o & st & Hd & Hch & Hsh & Hlike & Hok & Hfr & Hforce & Hhk & Halv & H).
  destruct (as_pend s) as [| |r] eqn:Hp; try (exists 0; cbn; rewrite Hp; exact Logic.I).
  destruct r as [k| |].
  2,3: exists 1; cbn [repeat ap_run ap_step ap_input as_step]; rewrite Hp, Halv; cbn [new_line ap_after as_world set_pend]; rewrite (not_stopped _ Hhk); exact Logic.I.
  destruct (step NRun (PRuns s)) as [s'|c s'| |] eqn:Hst; cbn [fits] in Hs; try contradiction.
  2: exists 1; cbn [repeat ap_run]; rewrite Hst; exact Logic.I.
  assert (Hlen : length (as_buf s') < length (as_buf s)).
  { destruct H as (l & ls & -> & Hb & ->). cbn [ap_step ap_input as_step] in Hst. rewrite Hp, Halv in Hst. cbn [new_line] in Hst.
    unfold as_feed in Hst. cbn [set_pend set_buf as_buf as_world as_force as_pend as_open as_alive] in Hst.
    destruct (feed _ _ _ _) as [w|x w| |]; cbn [a_bind ap_after] in Hst; try discriminate.
    unfold as_read in Hst. cbn [as_world as_force as_buf as_open as_alive] in Hst. destruct (prompt _ _ _ _) as [(b, f)|]; cbn [ap_after] in Hst; [|discriminate].
    cbn [as_world] in Hst. destruct (ap_stopped _); [discriminate|]. injection Hst as <-. cbn [as_buf].
    destruct (as_buf s) as [|c buf]; [destruct l; discriminate Hb|]. rewrite skipn_length. cbn [length]. lia. }
  destruct (IH ds s' Hs Hal) as (m & Hm); [lia|]. exists (S m). cbn [repeat ap_run]. rewrite Hst. exact Hm.
Qed.
Lemma app_settles is ls rest : readable P (read is (began tty)) -> lines_of (read is (began tty)) ls rest -> ~ recall_first ls ->
  exists n, settled (main (is ++ repeat NRun n)).
Proof.
  intros Hr Hl Hn. destruct (began_is tty) as (s0 & Hb & Hs0).
  assert (Hal : allowed P (read is (began tty))).
  { split; [exact Hr|]. intros ls' rest' Hl'. rewrite (lines_unique _ _ _ Hl' _ _ Hl). exact Hn. }
  assert (Hf : fits tty (read is (began tty)) (run is (began tty))).
  { apply (fits_run P Hstrict fuel tty is [] (began tty)); [rewrite Hb; exact Hs0|exact Hal]. }
  destruct (run is (began tty)) as [s|c s| |] eqn:E; cbn [fits] in Hf; try contradiction.
  - destruct (settles (S (length (as_buf s))) _ s Hf Hal (Nat.lt_succ_diag_r _)) as (m & Hm). exists m.
    change (main (is ++ repeat NRun m)) with (run (is ++ repeat NRun m) (began tty)). rewrite run_app, E. exact Hm.
  - exists 0. change (main (is ++ repeat NRun 0)) with (run (is ++ []) (began tty)). rewrite app_nil_r, E. exact Logic.I.
Qed.
Lemma app_exits is ls rest line : readable P (read is (began tty)) -> lines_of (read is (began tty)) ls rest -> ~ recall_first ls ->
  In line ls -> words line [lit "exit"] -> exists n s, main (is ++ repeat NRun n) = PReturned 0 s.
Proof.
  intros Hr Hl Hn Hin Hw. destruct (app_settles is ls rest Hr Hl Hn) as (n & Hset). exists n.
  assert (Hbytes : read (is ++ repeat NRun n) (began tty) = read is (began tty)) by (rewrite read_app, read_runs, app_nil_r; reflexivity).
  destruct (app_program P Hstrict fuel tty (is ++ repeat NRun n) ls rest) as (fed & waiting & o & e & Hls & Ht & _ & H); [rewrite Hbytes; assumption..|exact Hn|].
  destruct (main (is ++ repeat NRun n)) as [s|c s| |]; try contradiction.
  - destruct H as (-> & Hwt). rewrite (Hwt Hset), app_nil_r in Hls. subst fed. exfalso. exact (talk_waits _ _ _ _ _ Ht eq_refl line Hin Hw).
  - destruct H as (_ & ->). exists s. reflexivity.
Qed.
Lemma app_same is is' ls rest : readable P (read is (began tty)) -> lines_of (read is (began tty)) ls rest -> ~ recall_first ls ->
  read is' (began tty) = read is (began tty) -> settled (main is) -> settled (main is') -> written (main is) = written (main is').
Proof.
  intros Hr Hl Hn He S1 S2.
  destruct (app_program P Hstrict fuel tty is ls rest Hr Hl Hn) as (f1 & w1 & o1 & e1 & L1 & T1 & -> & H1).
  destruct (app_program P Hstrict fuel tty is' ls rest) as (f2 & w2 & o2 & e2 & L2 & T2 & -> & H2); [rewrite He; assumption..|exact Hn|].
  assert (Hf : f1 = f2).
  { destruct (main is) as [s1|c1 s1| |]; try contradiction; destruct (main is') as [s2|c2 s2| |]; try contradiction.
    - rewrite (proj2 H1 S1), app_nil_r in L1. rewrite (proj2 H2 S2), app_nil_r in L2. congruence.
    - rewrite (proj2 H1 S1), app_nil_r in L1. destruct H2 as (-> & _). subst f1. rewrite L2 in T1. rewrite (talk_stops _ _ _ _ _ T2 eq_refl _ _ _ T1), app_nil_r in L2. exact L2.
    - rewrite (proj2 H2 S2), app_nil_r in L2. destruct H1 as (-> & _). subst f2. rewrite L1 in T2. rewrite (talk_stops _ _ _ _ _ T1 eq_refl _ _ _ T2), app_nil_r in L1. auto.
    - destruct H1 as (-> & _), H2 as (-> & _). subst ls. apply app_eq_app in L2 as (x & [(Hx & _)|(Hx & _)]); subst.
      + rewrite (talk_stops _ _ _ _ _ T2 eq_refl _ _ _ T1), app_nil_r. reflexivity.
      + rewrite (talk_stops _ _ _ _ _ T1 eq_refl _ _ _ T2), app_nil_r. reflexivity. }
  subst f2. destruct (talk_unique _ _ _ _ _ T1 _ _ T2) as (-> & _). reflexivity.
Qed.
End Live.

(** ** The end of the input *)
Lemma app_idle P fuel tty is : forall s, as_pend s = PdNone -> ap_stopped (w_trace (as_world s)) = false -> ap_run P fuel tty is (PRuns s) = PRuns s.
Proof.
  induction is as [|i is IH]; intros s Hp Hs; [reflexivity|]. cbn [ap_run ap_step].
  replace (ap_after (as_step (ap_env P) fuel tty ex_color (ap_input i) s)) with (PRuns s); [apply IH; assumption|].
  destruct i; cbn [ap_input as_step]; rewrite Hp; cbn [ap_after]; rewrite Hs; reflexivity.
Qed.
Lemma running_not_stopped P fuel tty is : forall p s, ap_run P fuel tty is p = PRuns s -> (forall s', p = PRuns s' -> ap_stopped (w_trace (as_world s')) = false /\ as_alive s' = true) ->
  ap_stopped (w_trace (as_world s)) = false /\ as_alive s = true.
Proof.
  induction is as [|i is IH]; intros p s H Hp; [exact (Hp s H)|]. cbn [ap_run] in H. apply (IH _ _ H). intros s' Hs'.
  destruct p as [s1|c s1| |]; cbn [ap_step] in Hs'; try discriminate. destruct (Hp s1 eq_refl) as (_ & Hal).
  assert (Haft : forall r, ap_after r = PRuns s' -> r = AOk s' /\ ap_stopped (w_trace (as_world s')) = false).
  { intros r Hr. destruct r as [s2|x s2| | |]; cbn [ap_after] in Hr; try discriminate. destruct (ap_stopped _) eqn:E; [discriminate|]. injection Hr as ->. auto. }
  destruct (Haft _ Hs') as (Hr & Hst). split; [exact Hst|]. clear Haft Hs'.
  destruct i; cbn [ap_input as_step] in Hr; destruct (as_pend s1) as [| |[n| |]]; try (injection Hr as <-; exact Hal);
    rewrite Hal in Hr; cbn [new_line] in Hr; try (injection Hr as <-; exact Hal).
  unfold as_feed in Hr. destruct (feed _ _ _ _) as [w|x w| |]; cbn [a_bind] in Hr; try discriminate.
  unfold as_read in Hr. destruct (prompt _ _ _ _) as [(b, f)|]; [|discriminate]. injection Hr as <-. exact Hal.
Qed.
Lemma app_hangs P fuel tty is s is' : ap_main P fuel tty is = PRuns s -> as_pend s = PdWait ->
  exists s', ap_main P fuel tty (is ++ NEnd :: NRun :: is') = PRuns s' /\ written (PRuns s') = written (PRuns s).
Proof.
  intros H Hp. unfold ap_main in *.
  assert (Hrun : forall a b p, ap_run P fuel tty (a ++ b) p = ap_run P fuel tty b (ap_run P fuel tty a p)).
  { intros a; induction a as [|i a IH]; intros b p; [reflexivity|]. cbn. apply IH. }
  destruct (running_not_stopped _ _ _ _ _ _ H) as (Hst & Hal).
  { destruct (began_is tty) as (s0 & Hb & (fed & waiting & rest & o & st & _ & _ & _ & _ & _ & _ & _ & Hhk & Hal & _)). unfold began in Hb. rewrite Hb. intros s1 [= <-]. split; [apply not_stopped, Hhk|exact Hal]. }
  rewrite Hrun, H. cbn [ap_run ap_step ap_input as_step]. rewrite Hp. cbn [ap_after set_pend as_world]. rewrite Hst. cbn [ap_step ap_input as_step as_pend set_pend].
  change (as_alive (set_pend (PdDone AEnd) s)) with (as_alive s). rewrite Hal. cbn [new_line ap_after as_world set_pend]. rewrite Hst.
  eexists. split; [apply app_idle; [reflexivity|exact Hst]|reflexivity].
Qed.
