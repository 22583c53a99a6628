(** * Proofs about local sessions *)

From Verif Require Import Base FromStringModel HistoryModel StorageModel TerminalModel TelnetSpec MenuModel SessionModel PrefixModel CompletionModel ProcessorModel KeyboardModel KeyboardSpec KeyboardProofs
  LocalModel LocalSpec.
Open Scope nat_scope.
Open Scope list_scope.

(** ** The keyboard's steps *)
Lemma kb_snoc sgn m j l a s s' : kb_reaches sgn m j l s -> k_step sgn a s = Some s' -> kb_reaches sgn m j (l ++ [a]) s'.
Proof. unfold kb_reaches. intros H Hs. rewrite k_run_app, H. cbn [k_run]. rewrite Hs. reflexivity. Qed.
Lemma k_step_keys sgn a s s' : k_step sgn a s = Some s' ->
  exists ks, k_keys s' = k_keys s ++ ks /\ (a <> WGo -> ks = []) /\ (k_w s' = WLock \/ ks = []).
Proof.
  intros Hs. assert (Hsame : k_keys s' = k_keys s -> exists ks, k_keys s' = k_keys s ++ ks /\ (a <> WGo -> ks = []) /\ (k_w s' = WLock \/ ks = [])) by (intros ->; exists []; rewrite app_nil_r; auto).
  destruct a as [| | | |c|t| | |md].
  - apply step_worker, w_step_cases in Hs. destruct Hs as [p Hw Hmt ->|Hw He|Hw He|Hw|Hw Hst|Hw Hst Hq|f c s1 Hf Hg|k Hw]; try (apply Hsame; reflexivity).
    + apply Hsame. apply getchar_inv in Hg as (r & e & cs & -> & _). reflexivity.
    + exists [k]. split; [reflexivity|]. split; [congruence|left; reflexivity].
  - apply Hsame. apply step_main in Hs. unfold m_step, lock in Hs. destruct (k_m s); try discriminate; try (injection Hs as <-; reflexivity); try (destruct (k_mtx s); try discriminate; injection Hs as <-; reflexivity); try (destruct (k_w s); try discriminate; injection Hs as <-; reflexivity); destruct (k_reader s); injection Hs as <-; reflexivity.
  - apply Hsame. unfold k_step in Hs. destruct (k_m s), (k_w s); try discriminate; injection Hs as <-; reflexivity.
  - apply Hsame. unfold k_step in Hs. destruct (k_m s), (k_w s); try discriminate; injection Hs as <-; reflexivity.
  - apply Hsame. unfold k_step in Hs. destruct (k_m s); try discriminate; injection Hs as <-; reflexivity.
  - apply Hsame. unfold k_step in Hs. destruct (k_m s); try discriminate; injection Hs as <-; reflexivity.
  - apply Hsame. unfold k_step in Hs. destruct (k_m s); try discriminate; injection Hs as <-; reflexivity.
  - apply Hsame. unfold k_step in Hs. destruct (k_ready s); [destruct (k_m s); discriminate|]. destruct (k_m s); try discriminate; injection Hs as <-; reflexivity.
  - apply Hsame. unfold k_step in Hs. destruct (k_m s); try discriminate; injection Hs as <-; reflexivity.
Qed.
Lemma posted_keys sgn a k k' : k_step sgn a k = Some k' -> k_keys k' = k_keys k ++ posted k k'.
Proof. intros H. destruct (k_step_keys sgn a k k' H) as (ks & E & _). unfold posted. rewrite E, skipn_app, skipn_all, Nat.sub_diag. reflexivity. Qed.
(** Only the main thread moves the main thread. *)
Lemma k_step_main sgn a s s' : k_step sgn a s = Some s' -> match a with MGo | MCall _ => True | _ => k_m s' = k_m s end.
Proof.
  intros Hs. destruct a as [| | | |c|t| | |md]; try exact Logic.I.
  - apply step_worker, w_step_cases in Hs. destruct Hs as [p Hw Hmt ->|Hw He|Hw He|Hw|Hw Hst|Hw Hst Hq|f c s1 Hf Hg|k Hw]; try reflexivity. apply getchar_inv in Hg as (r & e & cs & -> & _). reflexivity.
  - unfold k_step in Hs. destruct (k_m s) eqn:Em, (k_w s); try discriminate; injection Hs as <-; exact Em.
  - unfold k_step in Hs. destruct (k_m s) eqn:Em, (k_w s); try discriminate; injection Hs as <-; exact Em.
  - unfold k_step in Hs. destruct (k_m s) eqn:Em; try discriminate; injection Hs as <-; exact Em.
  - unfold k_step in Hs. destruct (k_m s) eqn:Em; try discriminate; injection Hs as <-; exact Em.
  - unfold k_step in Hs. destruct (k_ready s); [destruct (k_m s); discriminate|]. destruct (k_m s) eqn:Em; try discriminate; injection Hs as <-; reflexivity.
  - unfold k_step in Hs. destruct (k_m s) eqn:Em; try discriminate; injection Hs as <-; exact Em.
Qed.
Lemma call_user sgn c k : k_m k = MUser -> exists k', k_step sgn (MCall c) k = Some k'.
Proof. intros H. unfold k_step. rewrite H. eauto. Qed.

Section Local.
Context (E : env) (sgn : bool) (fuel : nat) (tty : bool) (color : list event -> bool * bool) (m junk : tmode) (w : world).
Notation l_step := (l_step E sgn fuel tty color).
Notation l_run := (l_run E sgn fuel tty color).
Notation l_main := (l_main E sgn fuel tty color).
Notation lreaches := (lreaches E sgn fuel tty color m junk w).
Notation opened_alone := (opened_alone E tty color).
Notation pressed_alone := (pressed_alone E fuel tty color).

(** The actions of the keyboard in a run. *)
Definition from_run (l : list lact) (kl : list kact) : Prop :=
  typed_in kl = ltyped l /\ forall a, In a kl -> match a with MGo | MCall _ => True | _ => In (LKbd a) l end.
Definition of_session (s : local) : Prop := exists p0, opened_alone w = Some p0 /\ pressed_alone (lc_done s) p0 = Some (lc_proc s).
Definition l_inv (l : list lact) (s : local) : Prop :=
  exists kl, kb_reaches sgn m junk kl (lc_kbd s) /\ from_run l kl /\
  lc_done s ++ taken s ++ lc_queue s = k_keys (lc_kbd s) /\
  (lc_thrown s = [] -> active_after true kl = match lc_main s with LDeact _ => false | _ => true end) /\
  (match lc_main s with LTask => k_m (lc_kbd s) = MUser | _ => True end) /\
  match lc_main s with
  | LCtor => lc_done s = [] /\ lc_proc s = mkProc w term_init
  | LTask | LDeact _ | LAct => of_session s
  | LDtor | LOver => of_session s \/ lc_thrown s <> []
  end.

Lemma ltyped_snoc l a : ltyped (l ++ [a]) = ltyped l ++ match a with LKbd (Type_ t) => t | _ => [] end.
Proof. unfold ltyped. rewrite flat_map_app. cbn [flat_map]. rewrite app_nil_r. reflexivity. Qed.
Lemma from_kbd l kl a : from_run l kl -> match a with MGo | MCall _ => False | _ => True end -> from_run (l ++ [LKbd a]) (kl ++ [a]).
Proof.
  intros (H1 & H2) Ha. split.
  - rewrite typed_snoc, ltyped_snoc, H1. destruct a; reflexivity.
  - intros x Hx. apply in_app_or in Hx as [Hx|[<-|[]]].
    + specialize (H2 x Hx). destruct x; try exact Logic.I; apply in_or_app; left; exact H2.
    + destruct a; try exact Logic.I; apply in_or_app; right; left; reflexivity.
Qed.
Lemma from_main l kl a b : from_run l kl -> match a with MGo | MCall _ => True | _ => False end -> match b with LKbd _ => False | _ => True end -> from_run (l ++ [b]) (kl ++ [a]).
Proof.
  intros (H1 & H2) Ha Hb. split.
  - rewrite typed_snoc, ltyped_snoc, H1. destruct a; try (destruct Ha; fail); destruct b; try (destruct Hb; fail); reflexivity.
  - intros x Hx. apply in_app_or in Hx as [Hx|[<-|[]]].
    + specialize (H2 x Hx). destruct x; try exact Logic.I; apply in_or_app; left; exact H2.
    + destruct a; try exact Logic.I; destruct Ha.
Qed.
Lemma from_none l kl b : from_run l kl -> match b with LKbd _ => False | _ => True end -> from_run (l ++ [b]) kl.
Proof.
  intros (H1 & H2) Hb. split; [rewrite ltyped_snoc, H1; destruct b; try (destruct Hb; fail); rewrite app_nil_r; reflexivity|].
  intros x Hx. specialize (H2 x Hx). destruct x; try exact Logic.I; apply in_or_app; left; exact H2.
Qed.
Lemma pressed_snoc ks k : forall p0 p, pressed_alone ks p0 = Some p ->
  pressed_alone (ks ++ [k]) p0 = match l_press E fuel tty color k p with POk p' | PExc _ p' => Some p' | _ => None end.
Proof.
  induction ks as [|k0 ks IH]; intros p0 p H; cbn [LocalSpec.pressed_alone app] in *.
  - injection H as ->. unfold l_press, l_stroke. destruct (press _ _ _ _ _); reflexivity.
  - destruct (press E fuel tty _ p0); try discriminate; exact (IH _ _ H).
Qed.
Lemma session_key s k p' q : of_session s -> (l_press E fuel tty color k (lc_proc s) = POk p' \/ exists x, l_press E fuel tty color k (lc_proc s) = PExc x p') ->
  lc_done q = lc_done s ++ [k] -> lc_proc q = p' -> of_session q.
Proof.
  intros (p0 & H0 & H1) Hp Hd Hq. exists p0. split; [exact H0|]. rewrite Hd, (pressed_snoc _ _ _ _ H1), Hq. destruct Hp as [->|(x & ->)]; reflexivity.
Qed.
(** The main thread makes a step inside the keyboard. *)
Lemma kbd_main l s s' next : l_inv l s -> in_kbd sgn s next = LcOk s' -> (k_m (lc_kbd s) = MUser -> next = LcOk s' -> l_inv (l ++ [LMain]) s') ->
  (lc_main s <> LTask) -> l_inv (l ++ [LMain]) s'.
Proof.
  unfold in_kbd. intros (kl & H1 & H2 & H3 & H4 & H5 & H6) Hs Hn Ht.
  destruct (k_m (lc_kbd s)) eqn:Em; try (apply (Hn eq_refl Hs)); destruct (k_step sgn MGo (lc_kbd s)) as [k|] eqn:Hk; try discriminate; injection Hs as <-;
  (exists (kl ++ [MGo]); cbn [set_kbd lc_kbd lc_queue lc_stopped lc_main lc_proc lc_done lc_thrown taken];
   split; [exact (kb_snoc _ _ _ _ _ _ _ H1 Hk)|split; [apply from_main; [exact H2|exact Logic.I|exact Logic.I]|split]]);
  try (destruct (k_step_keys _ _ _ _ Hk) as (ks & Ek & En & _); rewrite En, app_nil_r in Ek by discriminate; unfold taken; cbn [lc_main set_kbd]; rewrite Ek; exact H3);
  (split; [rewrite active_snoc; exact H4|split; [destruct (lc_main s); try exact Logic.I; contradiction|exact H6]]).
Qed.
(** The main thread enters a function of the keyboard. *)
Lemma kbd_call l s c p s' b kl : kb_reaches sgn m junk kl (lc_kbd s) -> from_run l kl -> lc_done s ++ match p with LDeact k => [k] | _ => [] end ++ lc_queue s = k_keys (lc_kbd s) ->
  match b with LKbd _ => False | _ => True end -> p <> LTask ->
  (lc_thrown s = [] -> match c with Activate => true | Deactivate => false | Destroy => active_after true kl end = match p with LDeact _ => false | _ => true end) ->
  match p with LCtor => lc_done s = [] /\ lc_proc s = mkProc w term_init | LTask | LDeact _ | LAct => of_session s | LDtor | LOver => of_session s \/ lc_thrown s <> [] end ->
  call_kbd sgn c p s = LcOk s' -> l_inv (l ++ [b]) s'.
Proof.
  unfold call_kbd. intros H1 H2 H3 Hb Hp H4 H6 Hs. destruct (k_step sgn (MCall c) (lc_kbd s)) as [k|] eqn:Hk; [|discriminate]. injection Hs as <-.
  exists (kl ++ [MCall c]). unfold taken. cbn [set_main set_kbd lc_kbd lc_queue lc_stopped lc_main lc_proc lc_done lc_thrown].
  split; [exact (kb_snoc _ _ _ _ _ _ _ H1 Hk)|]. split; [apply from_main; [exact H2|exact Logic.I|exact Hb]|].
  split. { destruct (k_step_keys _ _ _ _ Hk) as (ks & Ek & En & _); rewrite En, app_nil_r in Ek by discriminate. rewrite Ek. exact H3. }
  split; [rewrite active_snoc; destruct c; exact H4|]. split; [destruct p; try exact Logic.I; contradiction|exact H6].
Qed.

Lemma l_step_inv l a s s' : l_inv l s -> l_step a s = LcOk s' -> l_inv (l ++ [a]) s'.
Proof.
  intros Hi Hs. destruct a as [|a| |]; cbn [LocalModel.l_step] in Hs.
  - unfold LocalModel.l_main in Hs. destruct (lc_main s) as [| |k| | |] eqn:Em.
    + (* constructor *)
      refine (kbd_main l s s' _ Hi Hs _ ltac:(congruence)). intros Hu Hn. destruct Hi as (kl & H1 & H2 & H3 & H4 & H5 & H6). rewrite Em in *. destruct H6 as (H6 & H7). unfold taken in H3. rewrite Em in H3.
      assert (Ho : open_local E tty (fst (color (w_trace (p_world (lc_proc s))))) (p_world (lc_proc s)) = open_local E tty (fst (color (w_trace w))) w) by (rewrite H7; reflexivity).
      rewrite Ho in Hn. destruct (open_local E tty (fst (color (w_trace w))) w) as [p|x p| |] eqn:Hop; try discriminate.
      * injection Hn as <-. exists kl. unfold taken. cbn [set_main set_proc lc_kbd lc_queue lc_stopped lc_main lc_proc lc_done lc_thrown]. split; [exact H1|]. split; [apply from_none; [exact H2|exact Logic.I]|]. split; [exact H3|]. split; [exact H4|]. split; [exact Hu|].
        exists p. cbn [set_main set_proc lc_done lc_proc]. rewrite H6. unfold LocalSpec.opened_alone. rewrite Hop. split; reflexivity.
      * refine (kbd_call l _ Destroy LDtor s' LMain kl _ _ _ Logic.I _ _ _ Hn); cbn [add_thrown set_proc lc_kbd lc_queue lc_stopped lc_main lc_proc lc_done lc_thrown].
        -- exact H1.
        -- exact H2.
        -- exact H3.
        -- discriminate.
        -- intros Hx. destruct (lc_thrown s); discriminate Hx.
        -- right. destruct (lc_thrown s); discriminate.
    + (* a task *)
      destruct Hi as (kl & H1 & H2 & H3 & H4 & H5 & H6). rewrite Em in *. unfold taken in H3. rewrite Em in H3.
      destruct (lc_stopped s); [discriminate|]. destruct (lc_queue s) as [|k q] eqn:Eq; [discriminate|].
      destruct (is_command tty color k (lc_proc s)) eqn:Ec.
      * refine (kbd_call l _ Deactivate (LDeact k) s' LMain kl _ _ _ Logic.I _ _ _ Hs); cbn [set_queue lc_kbd lc_queue lc_stopped lc_main lc_proc lc_done lc_thrown]; [exact H1|exact H2|exact H3|discriminate|reflexivity|].
        destruct H6 as (p0 & A & B). exists p0. split; assumption.
      * destruct (l_press E fuel tty color k (lc_proc s)) as [p|x p| |] eqn:Hp; try discriminate; injection Hs as <-;
        (exists kl; unfold taken; cbn [add_thrown add_done set_proc set_queue lc_kbd lc_queue lc_stopped lc_main lc_proc lc_done lc_thrown]; rewrite Em;
         split; [exact H1|split; [apply from_none; [exact H2|exact Logic.I]|split; [rewrite <- app_assoc; exact H3|]]]).
        -- split; [exact H4|]. split; [exact H5|]. refine (session_key s k p _ H6 (or_introl Hp) _ _); reflexivity.
        -- split; [intros Hx; destruct (lc_thrown s); discriminate Hx|]. split; [exact H5|]. refine (session_key s k p _ H6 (or_intror (ex_intro _ x Hp)) _ _); reflexivity.
    + (* deactivating, then the command *)
      refine (kbd_main l s s' _ Hi Hs _ ltac:(congruence)). intros Hu Hn. destruct Hi as (kl & H1 & H2 & H3 & H4 & H5 & H6). rewrite Em in *. unfold taken in H3. rewrite Em in H3.
      destruct (l_press E fuel tty color k (lc_proc s)) as [p|x p| |] eqn:Hp; try discriminate.
      * refine (kbd_call l _ Activate LAct s' LMain kl _ _ _ Logic.I _ _ _ Hn); cbn [add_done set_proc lc_kbd lc_queue lc_stopped lc_main lc_proc lc_done lc_thrown]; [exact H1|exact H2| |discriminate|reflexivity|].
        -- cbn [app]. rewrite <- app_assoc. exact H3.
        -- refine (session_key s k p _ H6 (or_introl Hp) _ _); reflexivity.
      * injection Hn as <-. exists kl. unfold taken. cbn [add_thrown set_main add_done set_proc lc_kbd lc_queue lc_stopped lc_main lc_proc lc_done lc_thrown]. split; [exact H1|]. split; [apply from_none; [exact H2|exact Logic.I]|].
        split; [cbn [app]; rewrite <- app_assoc; exact H3|]. split; [intros Hx; destruct (lc_thrown s); discriminate Hx|]. split; [exact Hu|]. refine (session_key s k p _ H6 (or_intror (ex_intro _ x Hp)) _ _); reflexivity.
    + (* activating *)
      refine (kbd_main l s s' _ Hi Hs _ ltac:(congruence)). intros Hu Hn. destruct Hi as (kl & H1 & H2 & H3 & H4 & H5 & H6). rewrite Em in *. unfold taken in H3. rewrite Em in H3.
      injection Hn as <-. exists kl. unfold taken. cbn [set_main lc_kbd lc_queue lc_stopped lc_main lc_proc lc_done lc_thrown]. split; [exact H1|]. split; [apply from_none; [exact H2|exact Logic.I]|]. split; [exact H3|]. split; [exact H4|]. split; [exact Hu|exact H6].
    + (* destructor *)
      destruct (k_m (lc_kbd s)) eqn:Ek; try (refine (kbd_main l s s' _ Hi Hs _ ltac:(congruence)); intros Hu Hn; discriminate).
      destruct Hi as (kl & H1 & H2 & H3 & H4 & H5 & H6). rewrite Em in *. unfold taken in H3. rewrite Em in H3.
      injection Hs as <-. exists kl. unfold taken. cbn [set_main lc_kbd lc_queue lc_stopped lc_main lc_proc lc_done lc_thrown]. split; [exact H1|]. split; [apply from_none; [exact H2|exact Logic.I]|]. split; [exact H3|]. split; [exact H4|]. split; [exact Logic.I|exact H6].
    + destruct (lc_stopped s), (lc_queue s); discriminate.
  - (* the keyboard *)
    assert (Ha : match a with MGo | MCall _ => False | _ => True end) by (destruct a; try exact Logic.I; discriminate).
    assert (Hk : exists k, k_step sgn a (lc_kbd s) = Some k /\ s' = set_queue (lc_queue s ++ posted (lc_kbd s) k) (set_kbd k s)).
    { destruct a; try (destruct Ha; fail); (destruct (k_step sgn _ (lc_kbd s)) as [k|]; [|discriminate]); exists k; split; congruence. }
    destruct Hk as (k & Hk & ->). destruct Hi as (kl & H1 & H2 & H3 & H4 & H5 & H6). exists (kl ++ [a]). unfold taken in *. cbn [set_queue set_kbd lc_kbd lc_queue lc_stopped lc_main lc_proc lc_done lc_thrown].
    split; [exact (kb_snoc _ _ _ _ _ _ _ H1 Hk)|]. split; [apply from_kbd; assumption|]. split; [rewrite (posted_keys _ _ _ _ Hk), <- H3, <- !app_assoc; reflexivity|].
    split; [rewrite active_snoc; destruct a; try exact H4; destruct Ha|]. pose proof (k_step_main _ _ _ _ Hk) as Hm. split; [|exact H6].
    destruct (lc_main s); try exact Logic.I. destruct a; try (destruct Ha; fail); congruence.
  - injection Hs as <-. destruct Hi as (kl & H1 & H2 & H3 & H4 & H5 & H6). exists kl. unfold taken in *. cbn [set_stopped lc_kbd lc_queue lc_stopped lc_main lc_proc lc_done lc_thrown].
    split; [exact H1|]. split; [apply from_none; [exact H2|exact Logic.I]|]. auto.
  - destruct (lc_main s) eqn:Em; try discriminate. destruct Hi as (kl & H1 & H2 & H3 & H4 & H5 & H6). rewrite Em in *. unfold taken in H3. rewrite Em in H3.
    refine (kbd_call l s Destroy LDtor s' LDestroy kl H1 H2 H3 Logic.I _ H4 (or_introl H6) Hs). discriminate.
Qed.
Lemma l_run_hist (P : list lact -> local -> Prop) : (forall l a s s', P l s -> l_step a s = LcOk s' -> P (l ++ [a]) s') ->
  forall l2 l1 s s', P l1 s -> l_run l2 s = LcOk s' -> P (l1 ++ l2) s'.
Proof.
  intros Hstep. induction l2 as [|a l2 IH]; intros l1 s s' Hp H; cbn [LocalModel.l_run] in H; [injection H as <-; rewrite app_nil_r; exact Hp|].
  destruct (l_step a s) as [s1| | | |] eqn:Hs; try discriminate. change (a :: l2) with ([a] ++ l2). rewrite app_assoc. exact (IH _ s1 s' (Hstep _ _ _ _ Hp Hs) H).
Qed.
Lemma reach_local l s : lreaches l s -> l_inv l s.
Proof.
  intros H. apply (l_run_hist l_inv l_step_inv l [] (local_init m junk w) s); [|exact H]. exists []. split; [reflexivity|]. split; [split; [reflexivity|intros a []]|]. split; [reflexivity|]. split; [reflexivity|]. split; [exact Logic.I|split; reflexivity].
Qed.

(** ** When nothing can move *)
Lemma main_moves kl k : kb_reaches sgn m junk kl k -> k_step sgn WGo k = None ->
  match k_m k with MUser | MDt3 | MGone | MKilled => True | _ => exists k', k_step sgn MGo k = Some k' end.
Proof.
  intros H Hq. pose proof (reach_safe sgn m junk kl k H) as (Hm & _ & _). unfold mutex_ok in Hm. unfold k_step in *.
  assert (Hw : k_m k <> MKilled -> wh (k_w k) = false).
  { intros Hk. destruct (k_w k) eqn:Ew; try reflexivity; exfalso; unfold w_step in Hq; rewrite Ew in Hq; destruct (k_m k), (k_enabled k); try discriminate; try (exact (Hk eq_refl)). }
  destruct (k_m k) eqn:Em; try exact Logic.I; unfold m_step; rewrite Em; try (eexists; reflexivity).
  - specialize (Hw ltac:(discriminate)). cbn [mh] in Hm. rewrite Hw in Hm. unfold lock. destruct (k_mtx k) as [[]|]; [destruct Hm; discriminate|destruct Hm; discriminate|eexists; reflexivity].
  - specialize (Hw ltac:(discriminate)). cbn [mh] in Hm. rewrite Hw in Hm. unfold lock. destruct (k_mtx k) as [[]|]; [destruct Hm; discriminate|destruct Hm; discriminate|eexists; reflexivity].
  - destruct (k_reader k); eexists; reflexivity.
Qed.

(** The main thread's place in the keyboard. *)
Definition phase (p : lpc) (q : mpc) : Prop :=
  match p, q with
  | LCtor, (MUser | MAct0 | MAct1 | MAct2 | MAct3 | MAct4 | MAct5) | LAct, (MUser | MAct0 | MAct1 | MAct2 | MAct3 | MAct4 | MAct5)
  | LTask, MUser | LDeact _, (MUser | MDe0 | MDe1 | MDe2 | MDe3) | LDtor, (MDt0 | MDt1 | MDt2 | MDt3 | MGone | MKilled) | LOver, MGone => True
  | _, _ => False
  end.
Definition phase_inv (l : list lact) (s : local) : Prop :=
  phase (lc_main s) (k_m (lc_kbd s)) /\ (lc_stopped s = true -> In LStop l) /\
  (match lc_main s with LDtor | LOver => In LDestroy l \/ (opened_alone w = None /\ lc_thrown s <> []) | _ => True end) /\
  (match lc_main s with LCtor => lc_proc s = mkProc w term_init | _ => True end).
Lemma in_kbd_phase s next s' : in_kbd sgn s next = LcOk s' -> phase (lc_main s) (k_m (lc_kbd s)) ->
  (k_m (lc_kbd s) = MUser /\ next = LcOk s') \/ (exists k, s' = set_kbd k s /\ phase (lc_main s) (k_m k)).
Proof.
  unfold in_kbd. intros Hs Hp. destruct (k_m (lc_kbd s)) eqn:Em; [left; auto|right..];
  (destruct (k_step sgn MGo (lc_kbd s)) as [k|] eqn:Hk; [|discriminate]; injection Hs as <-; exists k; split; [reflexivity|]; apply step_main in Hk; unfold m_step, lock in Hk; rewrite Em in Hk;
   destruct (lc_main s) as [| |c| | |]; try (destruct Hp; fail); try discriminate;
   repeat match type of Hk with
   | context[k_mtx ?x] => destruct (k_mtx x); [discriminate|]
   | context[match k_w ?x with _ => _ end] => destruct (k_w x)
   | context[if k_reader ?x then _ else _] => destruct (k_reader x) end; try discriminate; try (injection Hk as <-; exact Logic.I)).
Qed.
Lemma call_phase c p s s' : call_kbd sgn c p s = LcOk s' -> k_m (lc_kbd s) = MUser /\ exists k, s' = set_main p (set_kbd k s) /\ k_m k = match c with Activate => MAct0 | Deactivate => MDe0 | Destroy => MDt0 end.
Proof.
  unfold call_kbd. destruct (k_step sgn (MCall c) (lc_kbd s)) as [k|] eqn:Hk; [|discriminate]. intros [= <-]. unfold k_step in Hk. destruct (k_m (lc_kbd s)); try discriminate. injection Hk as <-. split; [reflexivity|]. eexists. split; reflexivity.
Qed.
Lemma phase_step l a s s' : phase_inv l s -> l_step a s = LcOk s' -> phase_inv (l ++ [a]) s'.
Proof.
  intros (H1 & H2 & H3 & H4) Hs.
  assert (Hst : forall x, (x = true -> In LStop l) -> x = true -> In LStop (l ++ [a])) by (intros x H Hx; apply in_or_app; left; exact (H Hx)).
  assert (Hd : (In LDestroy l \/ (opened_alone w = None /\ lc_thrown s <> [])) -> In LDestroy (l ++ [a]) \/ (opened_alone w = None /\ lc_thrown s <> [])) by (intros [H|H]; [left; apply in_or_app; left; exact H|right; exact H]).
  destruct a as [|a| |]; cbn [LocalModel.l_step] in Hs.
  - unfold LocalModel.l_main in Hs. unfold phase_inv. destruct (lc_main s) as [| |k| | |] eqn:Em.
    + apply in_kbd_phase in Hs as [(Hu & Hn)|(k & -> & Hk)]; [| |rewrite Em; exact H1].
      * rewrite H4 in Hn. cbn [p_world] in Hn. destruct (open_local E tty _ w) as [p|x p| |] eqn:Hop; try discriminate.
        -- injection Hn as <-. cbn [set_main set_proc lc_kbd lc_main lc_stopped lc_thrown].
           rewrite Hu. split; [exact Logic.I|]. split; [exact (Hst _ H2)|]. split; exact Logic.I.
        -- apply call_phase in Hn as (_ & k & -> & Ek). cbn [set_main set_kbd add_thrown set_proc lc_kbd lc_main lc_stopped lc_thrown]. rewrite Ek. split; [exact Logic.I|]. split; [exact (Hst _ H2)|]. split; [|exact Logic.I]. right. unfold LocalSpec.opened_alone. rewrite Hop. split; [reflexivity|]. cbn [lc_thrown]. intros Hx. apply app_eq_nil in Hx as (_ & Hx). discriminate.
      * rewrite Em in Hk. cbn [set_kbd lc_kbd lc_main lc_stopped lc_proc lc_thrown]. rewrite Em. split; [exact Hk|]. split; [exact (Hst _ H2)|]. split; [exact Logic.I|exact H4].
    + destruct (lc_stopped s) eqn:Est; [discriminate|]. destruct (lc_queue s) as [|k q] eqn:Eq; [discriminate|]. destruct (is_command tty color k (lc_proc s)).
      * apply call_phase in Hs as (_ & k' & -> & Ek). cbn [set_main set_kbd set_queue lc_kbd lc_main lc_stopped lc_thrown]. rewrite Ek, Est. split; [exact Logic.I|]. split; [discriminate|]. split; exact Logic.I.
      * destruct (l_press _ _ _ _ k (lc_proc s)); try discriminate; injection Hs as <-; cbn [add_thrown add_done set_proc set_queue lc_kbd lc_main lc_stopped lc_thrown]; rewrite Em, Est; (split; [exact H1|]); (split; [discriminate|]); split; exact Logic.I.
    + apply in_kbd_phase in Hs as [(Hu & Hn)|(k' & -> & Hk)]; [| |rewrite Em; exact H1].
      * destruct (l_press _ _ _ _ k (lc_proc s)); try discriminate.
        -- apply call_phase in Hn as (_ & k' & -> & Ek). cbn [set_main set_kbd add_done set_proc lc_kbd lc_main lc_stopped lc_thrown]. rewrite Ek. split; [exact Logic.I|]. split; [exact (Hst _ H2)|]. split; exact Logic.I.
        -- injection Hn as <-. cbn [add_thrown set_main set_kbd add_done set_proc lc_kbd lc_main lc_stopped lc_thrown]. rewrite Hu. split; [exact Logic.I|]. split; [exact (Hst _ H2)|]. split; exact Logic.I.
      * rewrite Em in Hk. cbn [set_kbd lc_kbd lc_main lc_stopped lc_proc lc_thrown]. rewrite Em. split; [exact Hk|]. split; [exact (Hst _ H2)|]. split; exact Logic.I.
    + apply in_kbd_phase in Hs as [(Hu & Hn)|(k' & -> & Hk)]; [| |rewrite Em; exact H1].
      * injection Hn as <-. cbn [set_main lc_kbd lc_main lc_stopped lc_thrown]. rewrite Hu. split; [exact Logic.I|]. split; [exact (Hst _ H2)|]. split; exact Logic.I.
      * rewrite Em in Hk. cbn [set_kbd lc_kbd lc_main lc_stopped lc_proc lc_thrown]. rewrite Em. split; [exact Hk|]. split; [exact (Hst _ H2)|]. split; exact Logic.I.
    + assert (Hg : (k_m (lc_kbd s) = MGone /\ s' = set_main LOver s) \/ in_kbd sgn s LcNone = LcOk s') by (destruct (k_m (lc_kbd s)); auto; left; split; congruence).
      destruct Hg as [(Ek & ->)|Hg].
      * cbn [set_main lc_kbd lc_main lc_stopped lc_thrown]. rewrite Ek. split; [exact Logic.I|]. split; [exact (Hst _ H2)|]. split; [exact (Hd H3)|exact Logic.I].
      * apply in_kbd_phase in Hg as [(Hu & Hn)|(k' & -> & Hk)]; [discriminate| |rewrite Em; exact H1]. rewrite Em in Hk. cbn [set_kbd lc_kbd lc_main lc_stopped lc_proc lc_thrown]. rewrite Em. split; [exact Hk|]. split; [exact (Hst _ H2)|]. split; [exact (Hd H3)|exact Logic.I].
    + destruct (lc_stopped s), (lc_queue s); discriminate.
  - assert (Hk : exists k, k_step sgn a (lc_kbd s) = Some k /\ match a with MGo | MCall _ => False | _ => True end /\ s' = set_queue (lc_queue s ++ posted (lc_kbd s) k) (set_kbd k s)).
    { destruct a; try discriminate; (destruct (k_step sgn _ (lc_kbd s)) as [k|]; [|discriminate]); exists k; (split; [reflexivity|]; split; [exact Logic.I|congruence]). }
    destruct Hk as (k & Hk & Ha & ->). pose proof (k_step_main _ _ _ _ Hk) as Hm. assert (Hm' : k_m k = k_m (lc_kbd s)) by (destruct a; try (destruct Ha; fail); exact Hm).
    unfold phase_inv. cbn [set_queue set_kbd lc_kbd lc_main lc_stopped lc_proc lc_thrown]. rewrite Hm'. split; [exact H1|]. split; [exact (Hst _ H2)|]. split; [destruct (lc_main s); auto|exact H4].
  - injection Hs as <-. unfold phase_inv. cbn [set_stopped lc_kbd lc_main lc_stopped lc_proc lc_thrown]. split; [exact H1|]. split; [intros _; apply in_or_app; right; left; reflexivity|]. split; [destruct (lc_main s); auto|exact H4].
  - destruct (lc_main s) eqn:Em; try discriminate. apply call_phase in Hs as (_ & k & -> & Ek). unfold phase_inv. cbn [set_main set_kbd lc_kbd lc_main lc_stopped lc_thrown]. rewrite Ek. split; [exact Logic.I|]. split; [exact (Hst _ H2)|].
    split; [left; apply in_or_app; right; left; reflexivity|exact Logic.I].
Qed.
Lemma reach_phase l s : lreaches l s -> phase_inv l s.
Proof. intros H. apply (l_run_hist phase_inv phase_step l [] (local_init m junk w) s); [|exact H]. split; [exact Logic.I|]. split; [discriminate|]. split; [exact Logic.I|reflexivity]. Qed.

(** When neither thread can move, and the session lives, all was handled. *)
Lemma settled_task l s : lreaches l s -> ~ In LStop l -> ~ In LDestroy l -> lc_thrown s = [] -> settled E sgn fuel tty color s -> lc_main s = LTask /\ lc_queue s = [].
Proof.
  intros H Hst Hd Ho (Hm & Hw). destruct (reach_phase l s H) as (P1 & P2 & P3 & P4). destruct (reach_local l s H) as (kl & H1 & _).
  cbn [LocalModel.l_step] in Hm, Hw. assert (Hq : k_step sgn WGo (lc_kbd s) = None) by (destruct (k_step sgn WGo (lc_kbd s)); [discriminate|reflexivity]).
  pose proof (main_moves kl (lc_kbd s) H1 Hq) as Hmv. unfold LocalModel.l_main in Hm.
  assert (Hin : forall next, phase (lc_main s) (k_m (lc_kbd s)) -> match lc_main s with LDtor | LOver => False | _ => True end -> in_kbd sgn s next = LcNone -> k_m (lc_kbd s) = MUser /\ next = LcNone).
  { unfold in_kbd. intros next Hp Hl Hn. destruct (k_m (lc_kbd s)) eqn:Ek; [auto|..]; try (destruct Hmv as (k' & Hmv); rewrite Hmv in Hn; discriminate); exfalso; destruct (lc_main s); try (destruct Hp; fail); destruct Hl. }
  destruct (lc_main s) as [| |k| | |] eqn:Em.
  - apply Hin in Hm as (Hu & Hm); [|exact P1|exact Logic.I]. destruct (open_local _ _ _ _); try discriminate. unfold call_kbd in Hm. cbn [add_thrown set_proc lc_kbd] in Hm. destruct (call_user sgn Destroy _ Hu) as (k' & Hk). rewrite Hk in Hm. discriminate.
  - split; [reflexivity|]. destruct (lc_stopped s) eqn:Est; [destruct (Hst (P2 eq_refl))|]. destruct (lc_queue s) as [|k q]; [reflexivity|]. cbn [phase] in P1.
    assert (Hu : k_m (lc_kbd s) = MUser) by (destruct (k_m (lc_kbd s)); try (destruct P1; fail); reflexivity).
    destruct (is_command _ _ k _); [unfold call_kbd in Hm; cbn [set_queue lc_kbd] in Hm; destruct (call_user sgn Deactivate _ Hu) as (k' & Hk); rewrite Hk in Hm; discriminate|]. destruct (l_press _ _ _ _ k _); discriminate.
  - apply Hin in Hm as (Hu & Hm); [|exact P1|exact Logic.I]. destruct (l_press _ _ _ _ k _); try discriminate. unfold call_kbd in Hm. cbn [add_done set_proc lc_kbd] in Hm. destruct (call_user sgn Activate _ Hu) as (k' & Hk). rewrite Hk in Hm. discriminate.
  - apply Hin in Hm as (Hu & Hm); [discriminate|exact P1|exact Logic.I].
  - destruct P3 as [P3|(_ & P3)]; contradiction.
  - destruct P3 as [P3|(_ & P3)]; contradiction.
Qed.
Lemma local_typed l s ts : lreaches l s -> ~ In LStop l -> ~ In LDestroy l -> undisturbed l -> lc_thrown s = [] -> settled E sgn fuel tty color s ->
  Forall plain_key ts -> ltyped l = flat_map linux_bytes ts ->
  exists p0, opened_alone w = Some p0 /\ pressed_alone (map key_of ts) p0 = Some (lc_proc s).
Proof.
  intros H Hst Hd (Hu1 & Hu2 & Hu3) Ht Hs Hp Hty. destruct (settled_task l s H Hst Hd Ht Hs) as (Em & Eq). destruct Hs as (_ & Hw).
  destruct (reach_local l s H) as (kl & H1 & (H2 & H2') & H3 & H4 & H5 & H6). rewrite Em in *. unfold taken in H3. rewrite Em, Eq, !app_nil_r in H3. specialize (H4 Ht).
  assert (Hq : k_step sgn WGo (lc_kbd s) = None) by (cbn [LocalModel.l_step] in Hw; destruct (k_step sgn WGo (lc_kbd s)); [discriminate|reflexivity]).
  assert (Hns : ~ In WSignal kl) by (intros Hx; exact (Hu3 (H2' _ Hx))). assert (Hnh : ~ hung_up kl) by (intros Hx; exact (Hu2 (H2' _ Hx))). assert (Hnt : ~ In Take kl) by (intros Hx; exact (Hu1 (H2' _ Hx))).
  destruct (all_read sgn m junk kl _ H1 H5 H4 Hns Hq) as (Hr & _). destruct (reach_input sgn m junk kl _ H1) as (Hi & Hi2). destruct (Hi2 Hnh) as (_ & Hi3).
  assert (Hbytes : k_read (lc_kbd s) = flat_map linux_bytes ts) by (rewrite Hi3, (not_taken sgn m junk kl _ H1 Hnt), <- Hty, <- H2, Hi, Hr, app_nil_r; reflexivity).
  assert (Hkeys : k_keys (lc_kbd s) = map key_of ts).
  { rewrite <- (keys_found sgn m junk kl _ ts H1 Hp Hbytes). unfold found. destruct (k_w (lc_kbd s)) eqn:Ew; rewrite ?app_nil_r; try reflexivity. exfalso. refine (quiet_not_notify sgn _ k _ Hq Ew). congruence. }
  destruct H6 as (p0 & A & B). exists p0. split; [exact A|]. rewrite <- Hkeys, <- H3. exact B.
Qed.

(** ** Only tasks of a destroyed session are a use after free; other undefined behaviour
    is that of the session alone *)
Lemma step_gone l a s : lreaches l s -> l_step a s = LcGone -> (In LDestroy l \/ opened_alone w = None) /\ lc_stopped s = false.
Proof.
  intros H Hs. destruct (reach_phase l s H) as (P1 & P2 & P3 & P4). destruct a as [|a| |]; cbn [LocalModel.l_step] in Hs.
  - unfold LocalModel.l_main in Hs.
    assert (Hin : forall next, in_kbd sgn s next = LcGone -> next = LcGone) by (unfold in_kbd; intros next; destruct (k_m (lc_kbd s)); auto; destruct (k_step sgn MGo (lc_kbd s)); discriminate).
    assert (Hca : forall c p s0, call_kbd sgn c p s0 <> LcGone) by (unfold call_kbd; intros c p s0; destruct (k_step sgn (MCall c) (lc_kbd s0)); discriminate).
    destruct (lc_main s) as [| |k| | |].
    + apply Hin in Hs. destruct (open_local _ _ _ _); try discriminate. exfalso. exact (Hca _ _ _ Hs).
    + destruct (lc_stopped s), (lc_queue s) as [|k q]; try discriminate. destruct (is_command _ _ k _); [exfalso; exact (Hca _ _ _ Hs)|]. destruct (l_press _ _ _ _ k _); discriminate.
    + apply Hin in Hs. destruct (l_press _ _ _ _ k _); try discriminate. exfalso. exact (Hca _ _ _ Hs).
    + apply Hin in Hs. discriminate.
    + destruct (k_m (lc_kbd s)); try discriminate; apply Hin in Hs; discriminate.
    + split; [destruct P3 as [P3|(P3 & _)]; auto|]. destruct (lc_stopped s), (lc_queue s); try discriminate; reflexivity.
  - destruct a; try discriminate; destruct (k_step sgn _ (lc_kbd s)); discriminate.
  - discriminate.
  - destruct (lc_main s); try discriminate. unfold call_kbd in Hs. destruct (k_step sgn _ (lc_kbd s)); discriminate.
Qed.
Lemma step_ub l a s : lreaches l s -> l_step a s = LcUB ->
  open_local E tty (fst (color (w_trace w))) w = PUB \/
  exists p0 k, opened_alone w = Some p0 /\ pressed_alone (lc_done s) p0 = Some (lc_proc s) /\ l_press E fuel tty color k (lc_proc s) = PUB.
Proof.
  intros H Hs. destruct (reach_phase l s H) as (_ & _ & _ & P4). destruct (reach_local l s H) as (kl & _ & _ & _ & _ & _ & H6). destruct a as [|a| |]; cbn [LocalModel.l_step] in Hs.
  - unfold LocalModel.l_main in Hs.
    assert (Hin : forall next, in_kbd sgn s next = LcUB -> next = LcUB) by (unfold in_kbd; intros next; destruct (k_m (lc_kbd s)); auto; destruct (k_step sgn MGo (lc_kbd s)); discriminate).
    assert (Hca : forall c p s0, call_kbd sgn c p s0 <> LcUB) by (unfold call_kbd; intros c p s0; destruct (k_step sgn (MCall c) (lc_kbd s0)); discriminate).
    destruct (lc_main s) as [| |k| | |].
    + left. apply Hin in Hs. rewrite P4 in Hs. cbn [p_world] in Hs. destruct (open_local _ _ _ _) eqn:Eo; try discriminate; [exfalso; exact (Hca _ _ _ Hs)|reflexivity].
    + right. destruct (lc_stopped s), (lc_queue s) as [|k q]; try discriminate. destruct (is_command _ _ k _); [exfalso; exact (Hca _ _ _ Hs)|]. destruct (l_press _ _ _ _ k _) eqn:Ep; try discriminate.
      destruct H6 as (p0 & A & B). exists p0, k. auto.
    + right. apply Hin in Hs. destruct (l_press _ _ _ _ k _) eqn:Ep; try discriminate; [exfalso; exact (Hca _ _ _ Hs)|]. destruct H6 as (p0 & A & B). exists p0, k. auto.
    + apply Hin in Hs. discriminate.
    + destruct (k_m (lc_kbd s)); try discriminate; apply Hin in Hs; discriminate.
    + destruct (lc_stopped s), (lc_queue s); discriminate.
  - destruct a; try discriminate; destruct (k_step sgn _ (lc_kbd s)); discriminate.
  - discriminate.
  - destruct (lc_main s); try discriminate. unfold call_kbd in Hs. destruct (k_step sgn _ (lc_kbd s)); discriminate.
Qed.
Lemma stop_stays l : forall s s', lc_stopped s = true -> l_run l s = LcOk s' -> lc_stopped s' = true.
Proof.
  intros s s' Hs Hr. refine (l_run_hist (fun _ s => lc_stopped s = true) _ l [] s s' Hs Hr). clear. intros l a s s' H Hs.
  assert (Hin : forall next, (forall s1, next = LcOk s1 -> lc_stopped s1 = true) -> in_kbd sgn s next = LcOk s' -> lc_stopped s' = true).
  { unfold in_kbd. intros next Hn Hi. destruct (k_m (lc_kbd s)); auto; destruct (k_step sgn MGo (lc_kbd s)); try discriminate; injection Hi as <-; exact H. }
  assert (Hca : forall c p s0 s1, lc_stopped s0 = true -> call_kbd sgn c p s0 = LcOk s1 -> lc_stopped s1 = true).
  { unfold call_kbd. intros c p s0 s1 H0 Hc. destruct (k_step sgn (MCall c) (lc_kbd s0)); try discriminate. injection Hc as <-. exact H0. }
  destruct a as [|a| |]; cbn [LocalModel.l_step] in Hs.
  - unfold LocalModel.l_main in Hs. destruct (lc_main s) as [| |k| | |].
    + refine (Hin _ _ Hs). intros s1 Hn. destruct (open_local _ _ _ _); try discriminate; [injection Hn as <-; exact H|]. refine (Hca _ _ _ _ _ Hn). exact H.
    + rewrite H in Hs. discriminate.
    + refine (Hin _ _ Hs). intros s1 Hn. destruct (l_press _ _ _ _ k _); try discriminate; [refine (Hca _ _ _ _ _ Hn); exact H|injection Hn as <-; exact H].
    + refine (Hin _ _ Hs). intros s1 Hn. injection Hn as <-. exact H.
    + destruct (k_m (lc_kbd s)); try (refine (Hin _ _ Hs); discriminate). injection Hs as <-. exact H.
    + rewrite H in Hs. discriminate.
  - destruct a; try discriminate; destruct (k_step sgn _ (lc_kbd s)); try discriminate; injection Hs as <-; exact H.
  - injection Hs as <-. reflexivity.
  - destruct (lc_main s); try discriminate. exact (Hca _ _ _ _ H Hs).
Qed.
Lemma stop_in l1 l2 s : l_run (l1 ++ LStop :: l2) (local_init m junk w) = LcOk s -> lc_stopped s = true.
Proof.
  assert (Hsp : forall l l' s0 s2, l_run (l ++ l') s0 = LcOk s2 -> exists s1, l_run l s0 = LcOk s1 /\ l_run l' s1 = LcOk s2).
  { induction l as [|a l IH]; intros l' s0 s2 Hr; cbn [LocalModel.l_run app] in *; [eauto|]. destruct (l_step a s0); try discriminate. exact (IH _ _ _ Hr). }
  intros H. destruct (Hsp _ _ _ _ H) as (s1 & _ & H2). cbn [LocalModel.l_run LocalModel.l_step] in H2. exact (stop_stays l2 (set_stopped s1) s eq_refl H2).
Qed.

(** ** The threads come to rest *)
Definition main_in (q : mpc) : nat :=
  match q with MUser => 0 | MAct0 => 11 | MAct1 => 10 | MAct2 => 9 | MAct3 => 8 | MAct4 => 7 | MAct5 => 1 | MDe0 => 4 | MDe1 => 3 | MDe2 => 2 | MDe3 => 1
  | MDt0 => 4 | MDt1 => 3 | MDt2 => 2 | MDt3 => 1 | MGone => 0 | MKilled => 0 end.
Definition main_weight (p : lpc) : nat := match p with LCtor => 10 | LTask => 0 | LDeact _ => 13 | LAct => 1 | LDtor => 1 | LOver => 0 end.
Definition keys_left (s : local) : nat :=
  length (lc_queue s) + length (k_ready (lc_kbd s)) + match k_w (lc_kbd s) with WGet1 | WGet2 | WGet3 | WNotify _ => 1 | _ => 0 end.
Definition l_measure (s : local) : nat := 20 * keys_left s + read_measure (lc_kbd s) + main_weight (lc_main s) + main_in (k_m (lc_kbd s)).
Lemma main_rest k k' : k_step sgn MGo k = Some k' ->
  k_eof k' = k_eof k /\ k_ready k' = k_ready k /\ read_measure k' + main_in (k_m k') < read_measure k + main_in (k_m k) /\
  match k_w k' with WGet1 | WGet2 | WGet3 | WNotify _ => 1 | _ => 0 end = match k_w k with WGet1 | WGet2 | WGet3 | WNotify _ => 1 | _ => 0 end.
Proof.
  intros Hk. apply step_main in Hk. unfold m_step, lock in Hk. unfold read_measure.
  destruct (k_m k) eqn:Em; try discriminate;
  repeat match type of Hk with
   | context[k_mtx ?x] => destruct (k_mtx x); [discriminate|]
   | context[match k_w ?x with _ => _ end] => destruct (k_w x) eqn:Ew
   | context[if k_reader ?x then _ else _] => destruct (k_reader x) end; try discriminate; injection Hk as <-; k_proj; rewrite ?Ew; cbn [main_in read_weight]; repeat split; lia.
Qed.
Lemma worker_rest k k' : k_eof k = false -> k_step sgn WGo k = Some k' ->
  length (posted k k') + length (k_ready k') + match k_w k' with WGet1 | WGet2 | WGet3 | WNotify _ => 1 | _ => 0 end <=
  length (k_ready k) + match k_w k with WGet1 | WGet2 | WGet3 | WNotify _ => 1 | _ => 0 end.
Proof.
  intros He Hk. unfold posted. apply step_worker, w_step_cases in Hk. destruct Hk as [p Hw Hmt ->|Hw Hen|Hw Hen|Hw|Hw Hst|Hw Hst Hq|f c s1 Hf Hg|k0 Hw]; k_proj; rewrite ?skipn_all; cbn [length]; try rewrite Hw; try lia.
  - apply getchar_inv in Hg as (r & e & cs & -> & -> & [(Hr & ->)|(Hr & -> & Heof & _ & _)]); [|congruence]. k_proj. rewrite skipn_all, Hr. cbn [length]. destruct (f c); lia.
  - rewrite skipn_app, skipn_all, Nat.sub_diag. cbn [skipn app length]. lia.
Qed.
Lemma own_rest a s s' : k_eof (lc_kbd s) = false -> own_step a -> l_step a s = LcOk s' -> k_eof (lc_kbd s') = false /\ l_measure s' < l_measure s.
Proof.
  intros He Ha Hs. destruct a as [|a| |]; try (destruct Ha; fail).
  - cbn [LocalModel.l_step] in Hs. unfold LocalModel.l_main in Hs.
    assert (Hin : forall next, (forall s1, k_m (lc_kbd s) = MUser -> next = LcOk s1 -> k_eof (lc_kbd s1) = false /\ l_measure s1 < l_measure s) -> in_kbd sgn s next = LcOk s' -> k_eof (lc_kbd s') = false /\ l_measure s' < l_measure s).
    { unfold in_kbd. intros next Hn Hi. destruct (k_m (lc_kbd s)) eqn:Em; [exact (Hn _ eq_refl Hi)|..]; (destruct (k_step sgn MGo (lc_kbd s)) as [k|] eqn:Hk; [|discriminate]; injection Hi as <-; destruct (main_rest _ _ Hk) as (R1 & R2 & R3 & R4);
      unfold l_measure, keys_left; cbn [set_kbd lc_kbd lc_queue lc_main]; rewrite R1, R2, R4; split; [exact He|lia]). }
    assert (Hca : forall c p s0 s1, k_m (lc_kbd s0) = MUser -> lc_kbd s0 = lc_kbd s -> call_kbd sgn c p s0 = LcOk s1 ->
       k_eof (lc_kbd s1) = false /\ l_measure s1 = 20 * (length (lc_queue s0) + length (k_ready (lc_kbd s)) + match k_w (lc_kbd s) with WGet1 | WGet2 | WGet3 | WNotify _ => 1 | _ => 0 end) + read_measure (lc_kbd s) + main_weight p + main_in match c with Activate => MAct0 | Deactivate => MDe0 | Destroy => MDt0 end).
    { unfold call_kbd, k_step. intros c p s0 s1 Hu Hk Hc. rewrite Hu in Hc. injection Hc as <-. unfold l_measure, keys_left, read_measure. cbn [set_main set_kbd lc_kbd lc_queue lc_main]. rewrite Hk. k_proj. split; [exact He|reflexivity]. }
    assert (Em' : l_measure s = 20 * keys_left s + read_measure (lc_kbd s) + main_weight (lc_main s) + main_in (k_m (lc_kbd s))) by reflexivity.
    destruct (lc_main s) as [| |k| | |] eqn:Em.
    + refine (Hin _ _ Hs). intros s1 Hu Hn. rewrite Hu in Em'. cbn [main_weight main_in] in Em'. destruct (open_local _ _ _ _) as [p|x p| |]; try discriminate.
      * injection Hn as <-. rewrite Em'. unfold l_measure, keys_left, read_measure. cbn [set_main set_proc lc_kbd lc_queue lc_main]. rewrite Hu. cbn [main_weight main_in]. split; [exact He|lia].
      * apply Hca in Hn as (R1 & ->); [|exact Hu|reflexivity]. split; [exact R1|]. rewrite Em'. unfold keys_left. cbn [add_thrown set_proc lc_queue main_weight main_in]. lia.
    + destruct (lc_stopped s); [discriminate|]. destruct (lc_queue s) as [|k q] eqn:Eq; [discriminate|]. destruct (is_command _ _ k _).
      * pose proof (call_phase _ _ _ _ Hs) as (Hu & _). cbn [set_queue lc_kbd] in Hu. apply Hca in Hs as (R1 & ->); [|exact Hu|reflexivity]. split; [exact R1|]. rewrite Em'. unfold keys_left. cbn [set_queue lc_queue main_weight main_in]. rewrite Eq. cbn [length]. lia.
      * destruct (l_press _ _ _ _ k _); try discriminate; injection Hs as <-; (split; [exact He|]); rewrite Em'; unfold l_measure, keys_left; cbn [add_thrown add_done set_proc set_queue lc_kbd lc_queue lc_main]; rewrite Eq, Em; cbn [length main_weight]; lia.
    + refine (Hin _ _ Hs). intros s1 Hu Hn. rewrite Hu in Em'. cbn [main_weight main_in] in Em'. destruct (l_press _ _ _ _ k _) as [p|x p| |]; try discriminate.
      * apply Hca in Hn as (R1 & ->); [|exact Hu|reflexivity]. split; [exact R1|]. rewrite Em'. unfold keys_left. cbn [add_done set_proc lc_queue main_weight main_in]. lia.
      * injection Hn as <-. rewrite Em'. unfold l_measure, keys_left, read_measure. cbn [add_thrown set_main add_done set_proc lc_kbd lc_queue lc_main]. rewrite Hu. cbn [main_weight main_in]. split; [exact He|lia].
    + refine (Hin _ _ Hs). intros s1 Hu Hn. rewrite Hu in Em'. cbn [main_weight main_in] in Em'. injection Hn as <-. rewrite Em'. unfold l_measure, keys_left, read_measure. cbn [set_main lc_kbd lc_queue lc_main]. rewrite Hu. cbn [main_weight main_in]. split; [exact He|lia].
    + destruct (k_m (lc_kbd s)) eqn:Ek; try (refine (Hin _ _ Hs); intros s1 Hu Hn; discriminate). injection Hs as <-. rewrite Em'. unfold l_measure, keys_left, read_measure. cbn [set_main lc_kbd lc_queue lc_main]. rewrite Ek. cbn [main_weight main_in]. split; [exact He|lia].
    + destruct (lc_stopped s), (lc_queue s); discriminate.
  - destruct a; try (destruct Ha; fail). cbn [LocalModel.l_step] in Hs. destruct (k_step sgn WGo (lc_kbd s)) as [k|] eqn:Hk; [|discriminate]. injection Hs as <-.
    pose proof (k_step_main _ _ _ _ Hk) as Hm. destruct (read_decreases _ _ _ He Hk) as (R1 & R2). pose proof (worker_rest _ _ He Hk) as R3.
    unfold l_measure, keys_left. cbn [set_queue set_kbd lc_kbd lc_queue lc_main]. rewrite Hm, app_length. split; [exact R1|lia].
Qed.
Lemma own_bounded l : forall s s', k_eof (lc_kbd s) = false -> Forall own_step l -> l_run l s = LcOk s' -> length l <= l_measure s.
Proof.
  induction l as [|a l IH]; intros s s' He Hf Hr; [cbn; lia|]. inversion Hf as [|x y Ha Hf']. subst. cbn [LocalModel.l_run] in Hr. destruct (l_step a s) as [s1| | | |] eqn:Hs; try discriminate.
  destruct (own_rest a s s1 He Ha Hs) as (He' & Hm). specialize (IH s1 s' He' Hf' Hr). cbn [length]. lia.
Qed.
End Local.

(** ** A session that never listens again *)
Definition l_deaf (s : local) : Prop :=
  k_enabled (lc_kbd s) = false /\ match k_w (lc_kbd s) with WLock | WCheck | WSleep | WWoke => True | _ => False end /\ lc_queue s = [] /\
  match lc_main s, k_m (lc_kbd s) with LTask, MUser | LDtor, (MDt0 | MDt1 | MDt2 | MDt3 | MKilled) => True | _, _ => False end.
Lemma l_deaf_step E sgn fuel tty color a s s' : l_deaf s -> l_step E sgn fuel tty color a s = LcOk s' -> l_deaf s' /\ lc_done s' = lc_done s.
Proof.
  intros (He & Hw & Hq & Hm) Hs. destruct a as [|a| |]; cbn [l_step] in Hs.
  - unfold l_main, in_kbd in Hs. destruct (lc_main s) eqn:Em; try (destruct Hm; fail).
    + rewrite Hq in Hs. destruct (lc_stopped s); discriminate.
    + unfold k_step, m_step in Hs. destruct (k_m (lc_kbd s)) eqn:Ek; try (destruct Hm; fail); try discriminate.
      * injection Hs as <-. split; [|reflexivity]. unfold l_deaf. cbn [set_kbd lc_kbd lc_queue lc_main]. rewrite Em. k_proj. auto.
      * destruct (k_reader (lc_kbd s)); injection Hs as <-; (split; [|reflexivity]); unfold l_deaf; cbn [set_kbd lc_kbd lc_queue lc_main]; rewrite Em; k_proj; auto.
      * injection Hs as <-. split; [|reflexivity]. unfold l_deaf. cbn [set_kbd lc_kbd lc_queue lc_main]. rewrite Em. k_proj. auto.
      * destruct (k_w (lc_kbd s)); try (destruct Hw; fail); discriminate.
  - assert (Hk : exists k, k_step sgn a (lc_kbd s) = Some k /\ match a with MGo | MCall _ => False | _ => True end /\ s' = set_queue (lc_queue s ++ posted (lc_kbd s) k) (set_kbd k s)).
    { destruct a; try discriminate; (destruct (k_step sgn _ (lc_kbd s)) as [k|]; [|discriminate]); exists k; (split; [reflexivity|]; split; [exact Logic.I|congruence]). }
    destruct Hk as (k & Hk & Ha & ->). pose proof (k_step_main _ _ _ _ Hk) as Hm'. assert (Hm2 : k_m k = k_m (lc_kbd s)) by (destruct a; try (destruct Ha; fail); exact Hm').
    cbn [set_queue set_kbd lc_done]. split; [|reflexivity]. unfold l_deaf, posted. cbn [set_queue set_kbd lc_kbd lc_queue lc_main]. rewrite Hm2, Hq.
    assert (Hx : k_enabled k = false /\ match k_w k with WLock | WCheck | WSleep | WWoke => True | _ => False end /\ k_keys k = k_keys (lc_kbd s)).
    { unfold k_step in Hk. destruct (k_m (lc_kbd s)) eqn:Ek; try discriminate; destruct a; try (destruct Ha; fail); try discriminate;
      try (unfold w_step, lock in Hk; destruct (k_w (lc_kbd s)); try (destruct Hw; fail); try discriminate; rewrite ?He in Hk; try (destruct (k_mtx (lc_kbd s)); [discriminate|]); injection Hk as <-; k_proj; auto; fail);
      try (destruct (k_w (lc_kbd s)) eqn:Ew; try (destruct Hw; fail); try discriminate; injection Hk as <-; k_proj; rewrite ?Ew; auto; fail);
      try (destruct (k_ready (lc_kbd s)); [discriminate|]; injection Hk as <-; k_proj; auto; fail). }
    destruct Hx as (X1 & X2 & X3). rewrite X3, skipn_all. auto.
  - injection Hs as <-. split; [|reflexivity]. unfold l_deaf. auto.
  - destruct (lc_main s) eqn:Em; try discriminate. unfold call_kbd, k_step in Hs. destruct (k_m (lc_kbd s)) eqn:Ek; try discriminate. injection Hs as <-. split; [|reflexivity].
    unfold l_deaf. cbn [set_main set_kbd lc_kbd lc_queue lc_main]. k_proj. auto.
Qed.
Lemma l_deaf_run E sgn fuel tty color l : forall s s', l_deaf s -> l_run E sgn fuel tty color l s = LcOk s' -> lc_done s' = lc_done s /\ lc_main s' <> LOver.
Proof.
  induction l as [|a l IH]; intros s s' Hd Hr; cbn [l_run] in Hr.
  - injection Hr as <-. split; [reflexivity|]. destruct Hd as (_ & _ & _ & Hm). intros Ex. rewrite Ex in Hm. destruct Hm.
  - destruct (l_step E sgn fuel tty color a s) as [s1| | | |] eqn:Hs; try discriminate. destruct (l_deaf_step _ _ _ _ _ _ _ _ Hd Hs) as (Hd' & Ed). destruct (IH s1 s' Hd' Hr) as (H1 & H2). split; [congruence|exact H2].
Qed.

(** ** Commands run while input is not active *)
Lemma mode_snoc l a : forall on m, (forall x, ~ In (SetMode x) (l ++ [a])) -> mode_after on m m l = Some m ->
  (a = MCall Activate -> on_after on l = false) -> mode_after on m m (l ++ [a]) = Some m.
Proof.
  induction l as [|b l IH]; intros on m Hn H Ha; cbn [app mode_after on_after] in *.
  - destruct a as [| | | |[]| | | |md]; try reflexivity; [rewrite (Ha eq_refl); reflexivity|]. exfalso. apply (Hn md). left. reflexivity.
  - assert (Hn' : forall x, ~ In (SetMode x) (l ++ [a])) by (intros x Hin; apply (Hn x); right; exact Hin).
    destruct b as [| | | |[]| | | |md]; try (apply IH; assumption); [destruct on; [discriminate|apply IH; assumption]|]. exfalso. apply (Hn md). left. reflexivity.
Qed.
Lemma on_snoc l a : forall b, on_after b (l ++ [a]) = match a with MCall Activate => true | MCall _ => false | _ => on_after b l end.
Proof. induction l as [|x l IH]; intros b; [destruct a as [| | | |[]| | | |]; reflexivity|]. cbn [app on_after]. destruct x as [| | | |[]| | | |]; apply IH. Qed.

Section Modes.
Context (E : env) (sgn : bool) (fuel : nat) (tty : bool) (color : list event -> bool * bool) (m junk : tmode) (w : world).
Notation l_step := (l_step E sgn fuel tty color).

Definition m_place (p : lpc) (thrown : list exn) (k : mpc) (on : bool) : Prop :=
  match p with
  | LDeact _ | LDtor => on = false
  | LOver => on = false /\ k = MGone
  | LCtor | LAct => on = true
  | LTask => (thrown = [] -> on = true) /\ k = MUser
  end.
Definition m_inv (s : local) : Prop :=
  exists kl, kb_reaches sgn m junk kl (lc_kbd s) /\ (forall x, ~ In (SetMode x) kl) /\ mode_after true m m kl = Some m /\
  m_place (lc_main s) (lc_thrown s) (k_m (lc_kbd s)) (on_after true kl).

Lemma m_kbd s next s' : m_inv s -> in_kbd sgn s next = LcOk s' -> lc_main s <> LTask -> lc_main s <> LOver -> (k_m (lc_kbd s) = MUser -> next = LcOk s' -> m_inv s') -> m_inv s'.
Proof.
  unfold in_kbd. intros (kl & H1 & H2 & H3 & H4) Hs Ht Ho Hn.
  assert (Hgo : k_step sgn MGo (lc_kbd s) = None \/ exists k, k_step sgn MGo (lc_kbd s) = Some k /\ m_inv (set_kbd k s)).
  { destruct (k_step sgn MGo (lc_kbd s)) as [k|] eqn:Hk; [right; exists k; split; [reflexivity|]|left; reflexivity].
    assert (Hn' : forall x, ~ In (SetMode x) (kl ++ [MGo])) by (intros x Hin; apply in_app_or in Hin as [Hin|[Hin|[]]]; [exact (H2 x Hin)|discriminate]).
    exists (kl ++ [MGo]). cbn [set_kbd lc_kbd lc_main lc_thrown]. split; [exact (kb_snoc _ _ _ _ _ _ _ H1 Hk)|]. split; [exact Hn'|].
    split; [apply mode_snoc; [exact Hn'|exact H3|discriminate]|]. rewrite on_snoc. destruct (lc_main s); try exact H4; contradiction. }
  destruct (k_m (lc_kbd s)) eqn:Em; try (apply Hn; [reflexivity|exact Hs]); destruct Hgo as [Hgo|(k & Hk & Hi)]; rewrite ?Hgo, ?Hk in Hs; try discriminate; injection Hs as <-; exact Hi.
Qed.
Lemma m_call s c p s' : (exists kl, kb_reaches sgn m junk kl (lc_kbd s) /\ (forall x, ~ In (SetMode x) kl) /\ mode_after true m m kl = Some m /\ (c = Activate -> on_after true kl = false)) ->
  match p, c with LDeact _, Deactivate | LAct, Activate | LDtor, Destroy => True | _, _ => False end -> call_kbd sgn c p s = LcOk s' -> m_inv s'.
Proof.
  intros (kl & H1 & H2 & H3 & H4) Hp Hs. unfold call_kbd in Hs. destruct (k_step sgn (MCall c) (lc_kbd s)) as [k|] eqn:Hk; [|discriminate]. injection Hs as <-.
  assert (Hn' : forall x, ~ In (SetMode x) (kl ++ [MCall c])) by (intros x Hin; apply in_app_or in Hin as [Hin|[Hin|[]]]; [exact (H2 x Hin)|discriminate]).
  exists (kl ++ [MCall c]). cbn [set_main set_kbd lc_kbd lc_main lc_thrown]. split; [exact (kb_snoc _ _ _ _ _ _ _ H1 Hk)|]. split; [exact Hn'|].
  split; [apply mode_snoc; [exact Hn'|exact H3|intros Hc; injection Hc as ->; auto]|]. rewrite on_snoc. destruct p, c; try (destruct Hp; fail); reflexivity.
Qed.
Lemma m_step_inv a s s' : m_inv s -> (forall x, a <> LKbd (SetMode x)) -> l_step a s = LcOk s' -> m_inv s'.
Proof.
  intros Hi Hx Hs. destruct a as [|a| |]; cbn [LocalModel.l_step] in Hs.
  - unfold LocalModel.l_main in Hs. destruct (lc_main s) as [| |k| | |] eqn:Em.
    + refine (m_kbd s _ s' Hi Hs ltac:(congruence) ltac:(congruence) _). intros Hu Hn. destruct Hi as (kl & H1 & H2 & H3 & H4). rewrite Em in H4.
      destruct (open_local _ _ _ _) as [p|x p| |]; try discriminate.
      * injection Hn as <-. exists kl. cbn [set_main set_proc lc_kbd lc_main lc_thrown]. split; [exact H1|]. split; [exact H2|]. split; [exact H3|]. split; [intros _; exact H4|exact Hu].
      * refine (m_call _ Destroy LDtor s' _ Logic.I Hn). exists kl. split; [exact H1|]. split; [exact H2|]. split; [exact H3|discriminate].
    + destruct Hi as (kl & H1 & H2 & H3 & H4). rewrite Em in H4. destruct (lc_stopped s); [discriminate|]. destruct (lc_queue s) as [|k q]; [discriminate|].
      destruct (is_command tty color k (lc_proc s)).
      * refine (m_call _ Deactivate (LDeact k) s' _ Logic.I Hs). exists kl. split; [exact H1|]. split; [exact H2|]. split; [exact H3|discriminate].
      * destruct (l_press E fuel tty color k (lc_proc s)) as [p|x p| |]; try discriminate; injection Hs as <-; exists kl; cbn [add_thrown add_done set_proc set_queue lc_kbd lc_main lc_thrown]; rewrite Em;
        (split; [exact H1|split; [exact H2|split; [exact H3|]]]); [exact H4|]. split; [intros Ht; destruct (lc_thrown s); discriminate Ht|exact (proj2 H4)].
    + refine (m_kbd s _ s' Hi Hs ltac:(congruence) ltac:(congruence) _). intros Hu Hn. destruct Hi as (kl & H1 & H2 & H3 & H4). rewrite Em in H4.
      destruct (l_press E fuel tty color k (lc_proc s)) as [p|x p| |]; try discriminate.
      * refine (m_call _ Activate LAct s' _ Logic.I Hn). exists kl. split; [exact H1|]. split; [exact H2|]. split; [exact H3|intros _; exact H4].
      * injection Hn as <-. exists kl. cbn [add_thrown set_main add_done set_proc lc_kbd lc_main lc_thrown]. split; [exact H1|]. split; [exact H2|]. split; [exact H3|]. split; [intros Ht; destruct (lc_thrown s); discriminate Ht|exact Hu].
    + refine (m_kbd s _ s' Hi Hs ltac:(congruence) ltac:(congruence) _). intros Hu Hn. destruct Hi as (kl & H1 & H2 & H3 & H4). rewrite Em in H4. injection Hn as <-.
      exists kl. cbn [set_main lc_kbd lc_main lc_thrown]. split; [exact H1|]. split; [exact H2|]. split; [exact H3|]. split; [intros _; exact H4|exact Hu].
    + destruct (k_m (lc_kbd s)) eqn:Ek; try (refine (m_kbd s _ s' Hi Hs ltac:(congruence) ltac:(congruence) _); intros Hu Hn; discriminate).
      destruct Hi as (kl & H1 & H2 & H3 & H4). rewrite Em in H4. injection Hs as <-. exists kl. cbn [set_main lc_kbd lc_main lc_thrown]. split; [exact H1|]. split; [exact H2|]. split; [exact H3|]. split; [exact H4|exact Ek].
    + destruct (lc_stopped s), (lc_queue s); discriminate.
  - assert (Ha : match a with MGo | MCall _ | SetMode _ => False | _ => True end) by (destruct a; try exact Logic.I; try discriminate; exfalso; eapply Hx; reflexivity).
    assert (Hk : exists k, k_step sgn a (lc_kbd s) = Some k /\ s' = set_queue (lc_queue s ++ posted (lc_kbd s) k) (set_kbd k s)).
    { destruct a; try (destruct Ha; fail); (destruct (k_step sgn _ (lc_kbd s)) as [k|]; [|discriminate]); exists k; split; congruence. }
    destruct Hk as (k & Hk & ->). destruct Hi as (kl & H1 & H2 & H3 & H4). pose proof (k_step_main _ _ _ _ Hk) as Hm.
    assert (Hn' : forall x, ~ In (SetMode x) (kl ++ [a])) by (intros x Hin; apply in_app_or in Hin as [Hin|[Hin|[]]]; [exact (H2 x Hin)|subst a; destruct Ha]).
    exists (kl ++ [a]). cbn [set_queue set_kbd lc_kbd lc_main lc_thrown]. split; [exact (kb_snoc _ _ _ _ _ _ _ H1 Hk)|]. split; [exact Hn'|].
    split; [apply mode_snoc; [exact Hn'|exact H3|intros ->; destruct Ha]|]. rewrite on_snoc. destruct a; try (destruct Ha; fail); rewrite Hm; exact H4.
  - injection Hs as <-. exact Hi.
  - destruct (lc_main s) eqn:Em; try discriminate. destruct Hi as (kl & H1 & H2 & H3 & H4). refine (m_call _ Destroy LDtor s' _ Logic.I Hs). exists kl. split; [exact H1|]. split; [exact H2|]. split; [exact H3|discriminate].
Qed.
Lemma m_run_inv l : forall s s', m_inv s -> mode_untouched l -> l_run E sgn fuel tty color l s = LcOk s' -> m_inv s'.
Proof.
  induction l as [|a l IH]; intros s s' Hi Hx Hr; cbn [l_run] in Hr; [injection Hr as <-; exact Hi|].
  destruct (l_step a s) as [s1| | | |] eqn:Hs; try discriminate. refine (IH s1 s' (m_step_inv a s s1 Hi _ Hs) _ Hr).
  - intros x ->. apply (Hx x). left. reflexivity.
  - intros x Hin. apply (Hx x). right. exact Hin.
Qed.
Lemma reach_modes l s : lreaches E sgn fuel tty color m junk w l s -> mode_untouched l -> m_inv s.
Proof.
  intros H Hx. refine (m_run_inv l (local_init m junk w) s _ Hx H). exists []. split; [reflexivity|]. split; [intros x []|]. split; reflexivity.
Qed.
Lemma inv_mode s : m_inv s -> k_m (lc_kbd s) = MUser -> exists on, m_place (lc_main s) (lc_thrown s) MUser on /\ k_enabled (lc_kbd s) = on /\ k_tty (lc_kbd s) = if on then manual m else m.
Proof.
  intros (kl & H1 & H2 & H3 & H4) Hu. exists (on_after true kl). rewrite Hu in H4. split; [exact H4|].
  destruct (mode_run sgn kl true m m (kbd_init m junk) (lc_kbd s) m) as (saved & Hm); [cbn; auto|exact H3|exact H1|].
  pose proof (reach_on sgn m junk kl _ H1) as Ho. unfold on_ok in Ho. rewrite Hu in Ho. rewrite (on_active kl true (on_user sgn m junk kl _ H1 Hu)) in *.
  split; [exact Ho|]. unfold mode_ok in Hm. rewrite Hu in Hm. destruct (active_after true kl); exact (proj1 Hm).
Qed.
Lemma inv_over s : m_inv s -> lc_main s = LOver -> k_tty (lc_kbd s) = m.
Proof.
  intros (kl & H1 & H2 & H3 & H4) Hm. rewrite Hm in H4. destruct H4 as (_ & Hg).
  destruct (mode_run sgn kl true m m (kbd_init m junk) (lc_kbd s) m) as (saved & Hk); [cbn; auto|exact H3|exact H1|]. unfold mode_ok in Hk. rewrite Hg in Hk. exact (proj2 Hk).
Qed.

(** Only lines call commands. *)
Definition calls (w : world) : list event := filter (fun e => match e with EvCall _ _ _ => true | _ => false end) (w_trace w).
Lemma calls_log e x : match e with EvCall _ _ _ => False | _ => True end -> calls (log e x) = calls x.
Proof. intros He. unfold calls. cbn [log w_trace]. rewrite filter_app. destruct e; try (destruct He; fail); apply app_nil_r. Qed.
Lemma calls_op o x : calls (apply_op x o) = calls x.
Proof. destruct o; cbn [apply_op]; try reflexivity; try (apply calls_log; exact Logic.I). destruct (relabel _ _). rewrite calls_log; [reflexivity|exact Logic.I]. Qed.
Lemma calls_ops os : forall x, calls (apply_ops os x) = calls x.
Proof. induction os as [|o os IH]; intros x; [reflexivity|]. cbn [apply_ops fold_left]. unfold apply_ops in IH. rewrite IH. apply calls_op. Qed.
Definition hcalls (x : world) (r : hres) : Prop := match r with HOk y | HExc _ y => calls y = calls x | _ => True end.
Lemma calls_hook k args x : hcalls x (run_hook E k args x).
Proof. unfold run_hook. destruct (ur_end _); cbn [hcalls]; rewrite calls_ops, calls_log; auto. Qed.
Lemma calls_exit x : hcalls x (session_exit E x).
Proof.
  unfold session_exit. destruct (e_has E KSesExit); [|reflexivity]. pose proof (calls_hook KSesExit [] x) as H1. destruct (run_hook E KSesExit [] x) as [y|e y| |]; try exact H1. cbn [h_bind hcalls] in *.
  destruct (e_has E KCliExit).
  - pose proof (calls_hook KCliExit [] y) as H2. destruct (run_hook E KCliExit [] y) as [z|e z| |]; cbn [h_bind hcalls] in *; try exact Logic.I; try congruence. destruct (get_commands _); cbn [hcalls]; [|exact Logic.I]. change (calls z = calls x). congruence.
  - cbn [h_bind]. destruct (get_commands _); cbn [hcalls]; [|exact Logic.I]. exact H1.
Qed.
Definition pcalls (x : world) (r : pres) : Prop := match r with POk p | PExc _ p => calls (p_world p) = calls x | _ => True end.
Lemma calls_out t x : calls (out t x) = calls x.
Proof. apply calls_log. exact Logic.I. Qed.
Lemma calls_set_line c t p : calls (p_world (p_set_line tty c t p)) = calls (p_world p).
Proof. unfold p_set_line. destruct (set_line _ _ _ _). apply calls_out. Qed.
Lemma calls_prompt c p : pcalls (p_world p) (p_prompt tty c p).
Proof. unfold p_prompt. destruct (prompt _ _ _ _) as [(b & f)|]; [|exact Logic.I]. apply calls_out. Qed.
Lemma calls_process c sy p : (forall t, sy <> SyCommand t) -> pcalls (p_world p) (process E fuel tty c sy p).
Proof.
  intros Hn. destruct sy as [|t| | | | |]; cbn [process].
  - reflexivity.
  - exfalso. exact (Hn t eq_refl).
  - unfold previous_cmd. destruct (previous _ _) as [(t & h)|]; [|exact Logic.I]. unfold pcalls. rewrite calls_set_line. reflexivity.
  - unfold next_cmd. destruct (next _) as [(t & h)|]; [|exact Logic.I]. unfold pcalls. rewrite calls_set_line. reflexivity.
  - destruct (get_completions _ _ _ _) as [l| |]; try exact Logic.I. destruct l as [|c0 [|c1 l]]; [reflexivity|apply calls_set_line|].
    destruct (common_prefix _); [|exact Logic.I]. destruct (Nat.ltb _ _); [apply calls_set_line|].
    match goal with |- pcalls _ (p_bind (p_prompt tty c ?q) _) => pose proof (calls_prompt c q) as Hp; destruct (p_prompt tty c q) as [r|x r| |] end; cbn [p_bind]; try exact Logic.I; unfold pcalls in *.
    + rewrite calls_set_line. change (calls (p_world r) = calls (p_world p)). rewrite Hp. apply calls_out.
    + rewrite Hp. apply calls_out.
  - pose proof (calls_exit (p_world p)) as H. destruct (session_exit E (p_world p)); exact H.
  - match goal with |- pcalls _ (p_bind (p_prompt tty c ?q) _) => pose proof (calls_prompt c q) as Hp; destruct (p_prompt tty c q) as [r|x r| |] end; cbn [p_bind]; try exact Logic.I; unfold pcalls in *.
    + rewrite calls_set_line. change (calls (p_world r) = calls (p_world p)). rewrite Hp. apply calls_out.
    + rewrite Hp. apply calls_out.
Qed.
Lemma calls_press k p : is_command tty color k p = false -> pcalls (p_world p) (l_press E fuel tty color k p).
Proof.
  unfold is_command, l_press, press, l_stroke. destruct (color (w_trace (p_world p))) as (c1, c2). cbn [ks_key ks_color ks_color']. intros Hn. destruct (keypressed tty c1 k (p_term p)) as [((b & sy) & t)|]; [|exact Logic.I].
  pose proof (calls_process c2 sy (p_out b (mkProc (p_world p) t))) as H.
  assert (Hc : calls (p_world (p_out b (mkProc (p_world p) t))) = calls (p_world p)) by apply calls_out.
  assert (Hs : forall t, sy <> SyCommand t) by (intros t' ->; discriminate). specialize (H Hs).
  destruct (process _ _ _ _ _ _); unfold pcalls in *; try exact Logic.I; congruence.
Qed.
Lemma calls_open c x : pcalls x (open_local E tty c x).
Proof.
  assert (He : hcalls x (session_enter E x)).
  { unfold session_enter. destruct (e_has E KCliEnter), (e_has E KSesEnter); try apply calls_hook; [| |reflexivity].
    - pose proof (calls_hook KCliEnter [] x) as H1. destruct (run_hook E KCliEnter [] x) as [y|e y| |]; try exact H1. cbn [h_bind]. pose proof (calls_hook KSesEnter [] y) as H2. destruct (run_hook E KSesEnter [] y); cbn [hcalls] in *; try exact Logic.I; congruence.
    - pose proof (calls_hook KCliEnter [] x) as H1. destruct (run_hook E KCliEnter [] x); exact H1. }
  unfold open_local. destruct (session_enter E x) as [y|e y| |]; cbn [of_hres p_bind]; try exact Logic.I; [|exact He].
  pose proof (calls_prompt c (mkProc y term_init)) as H. destruct (p_prompt tty c (mkProc y term_init)); cbn [pcalls hcalls p_world] in *; try exact Logic.I; congruence.
Qed.
Lemma calls_step s s' : l_step LMain s = LcOk s' -> called s' <> called s -> (exists k, lc_main s = LDeact k) /\ k_m (lc_kbd s) = MUser.
Proof.
  change (called s') with (calls (p_world (lc_proc s'))). change (called s) with (calls (p_world (lc_proc s))). intros Hs Hc. cbn [LocalModel.l_step] in Hs. unfold LocalModel.l_main in Hs.
  assert (Hin : forall next, in_kbd sgn s next = LcOk s' -> k_m (lc_kbd s) = MUser).
  { intros next Hk. unfold in_kbd in Hk. destruct (k_m (lc_kbd s)); try reflexivity; exfalso; destruct (k_step sgn MGo (lc_kbd s)); try discriminate; injection Hk as <-; apply Hc; reflexivity. }
  destruct (lc_main s) as [| |k| | |] eqn:Em.
  - exfalso. specialize (Hin _ Hs) as Hu. unfold in_kbd in Hs. rewrite Hu in Hs.
    pose proof (calls_open (fst (color (w_trace (p_world (lc_proc s))))) (p_world (lc_proc s))) as H. destruct (open_local _ _ _ _) as [p|x p| |]; try discriminate.
    + injection Hs as <-. apply Hc. exact H.
    + unfold call_kbd in Hs. destruct (k_step _ _ _); [|discriminate]. injection Hs as <-. apply Hc. exact H.
  - exfalso. destruct (lc_stopped s); [discriminate|]. destruct (lc_queue s) as [|k q]; [discriminate|]. destruct (is_command tty color k (lc_proc s)) eqn:Ek.
    + unfold call_kbd in Hs. destruct (k_step _ _ _); [|discriminate]. injection Hs as <-. apply Hc. reflexivity.
    + pose proof (calls_press k (lc_proc s) Ek) as H. destruct (l_press E fuel tty color k (lc_proc s)) as [p|x p| |]; try discriminate; injection Hs as <-; apply Hc; exact H.
  - split; [eauto|exact (Hin _ Hs)].
  - exfalso. specialize (Hin _ Hs) as Hu. unfold in_kbd in Hs. rewrite Hu in Hs. injection Hs as <-. apply Hc. reflexivity.
  - exfalso. destruct (k_m (lc_kbd s)) eqn:Ek; try (specialize (Hin _ Hs); congruence). { unfold in_kbd in Hs. rewrite Ek in Hs. discriminate. } injection Hs as <-. apply Hc. reflexivity.
  - destruct (lc_stopped s), (lc_queue s); discriminate.
Qed.
Lemma local_modes l s : lreaches E sgn fuel tty color m junk w l s -> mode_untouched l ->
  (forall s', l_step LMain s = LcOk s' -> called s' <> called s -> k_enabled (lc_kbd s) = false /\ k_tty (lc_kbd s) = m) /\
  (lc_main s = LTask -> lc_thrown s = [] -> k_enabled (lc_kbd s) = true /\ k_tty (lc_kbd s) = manual m) /\
  (lc_main s = LOver -> k_tty (lc_kbd s) = m).
Proof.
  intros H Hx. pose proof (reach_modes l s H Hx) as Hi. split; [|split].
  - intros s' Hs Hc. destruct (calls_step s s' Hs Hc) as ((k & Em) & Hu).
    destruct (inv_mode s Hi Hu) as (on & Hp & H1 & H2). rewrite Em in Hp. cbn in Hp. rewrite Hp in H1, H2. auto.
  - intros Em Ht. assert (Hu : k_m (lc_kbd s) = MUser) by (destruct Hi as (kl & _ & _ & _ & Hp); rewrite Em in Hp; exact (proj2 Hp)).
    destruct (inv_mode s Hi Hu) as (on & Hp & H1 & H2). rewrite Em in Hp. rewrite (proj1 Hp Ht) in *. auto.
  - apply inv_over, Hi.
Qed.
(** Only Enter ends a line. *)
Lemma command_ret k p : is_command tty color k p = true -> k = KRet.
Proof.
  unfold is_command. generalize (ks_color (l_stroke color k p)). intros c. unfold keypressed, obind, before_input. cbn zeta. destruct k; try discriminate; try reflexivity;
  repeat match goal with
  | |- context [match ?x with _ => _ end] => lazymatch x with context [match _ with _ => _ end] => fail | _ => destruct x; try discriminate end
  end.
Qed.
Lemma deact_ret l : forall s s', l_run E sgn fuel tty color l s = LcOk s' -> (forall k, lc_main s = LDeact k -> k = KRet) -> forall k, lc_main s' = LDeact k -> k = KRet.
Proof.
  induction l as [|a l IH]; intros s s' Hr Hi k Hk; cbn [l_run] in Hr; [injection Hr as <-; exact (Hi k Hk)|].
  destruct (l_step a s) as [s1| | | |] eqn:Hs; try discriminate. apply (IH s1 s' Hr); [|exact Hk]. clear IH Hr Hk s' k. intros k Hk.
  destruct a as [|a| |]; cbn [LocalModel.l_step] in Hs.
  - assert (Hin : forall next, in_kbd sgn s next = LcOk s1 -> lc_main s1 = lc_main s \/ next = LcOk s1).
    { intros next H. unfold in_kbd in H. destruct (k_m (lc_kbd s)); try (right; exact H); (destruct (k_step sgn MGo (lc_kbd s)); [|discriminate]); injection H as <-; left; reflexivity. }
    assert (Hca : forall c p s0, call_kbd sgn c p s0 = LcOk s1 -> lc_main s1 = p).
    { intros c p s0 H. unfold call_kbd in H. destruct (k_step _ _ _); [|discriminate]. injection H as <-. reflexivity. }
    unfold LocalModel.l_main in Hs. destruct (lc_main s) as [| |k0| | |] eqn:Em.
    + destruct (Hin _ Hs) as [H|H]; [congruence|]. destruct (open_local _ _ _ _); try discriminate; [injection H as <-; discriminate Hk|apply Hca in H; congruence].
    + destruct (lc_stopped s); [discriminate|]. destruct (lc_queue s) as [|k0 q]; [discriminate|]. destruct (is_command tty color k0 (lc_proc s)) eqn:Ek.
      * apply Hca in Hs. rewrite Hk in Hs. injection Hs as ->. exact (command_ret _ _ Ek).
      * destruct (l_press _ _ _ _ k0 _); try discriminate; injection Hs as <-; cbn [add_thrown add_done set_proc set_queue lc_main] in Hk; congruence.
    + destruct (Hin _ Hs) as [H|H]; [rewrite H in Hk; exact (Hi k Hk)|]. destruct (l_press _ _ _ _ k0 _); try discriminate; [apply Hca in H; congruence|injection H as <-; discriminate Hk].
    + destruct (Hin _ Hs) as [H|H]; [congruence|]. injection H as <-. discriminate Hk.
    + destruct (k_m (lc_kbd s)); try (destruct (Hin _ Hs) as [H|H]; [congruence|discriminate]). injection Hs as <-. discriminate Hk.
    + destruct (lc_stopped s), (lc_queue s); discriminate.
  - assert (H : exists x, s1 = set_queue (lc_queue s ++ posted (lc_kbd s) x) (set_kbd x s)) by (destruct a; try discriminate; (destruct (k_step sgn _ (lc_kbd s)) as [x|]; [|discriminate]); exists x; congruence).
    destruct H as (x & ->). exact (Hi k Hk).
  - injection Hs as <-. exact (Hi k Hk).
  - destruct (lc_main s); try discriminate. unfold call_kbd in Hs. destruct (k_step _ _ _); [|discriminate]. injection Hs as <-. discriminate Hk.
Qed.
Lemma local_lines l s k : lreaches E sgn fuel tty color m junk w l s -> lc_main s = LDeact k -> k = KRet.
Proof. intros H. refine (deact_ret l _ s H _ k). intros k0 H0. discriminate H0. Qed.
End Modes.
