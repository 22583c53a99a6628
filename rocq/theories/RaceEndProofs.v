(** * The end of a session: its members are destroyed last; and its queue *)

From Verif Require Import Base SchedulerModel KeyboardModel KeyboardSpec KeyboardProofs LocalModel RaceSpec RaceModel RaceProofs.
From Verif Require Import SplitModel FromStringModel HistoryModel StorageModel TerminalModel MenuModel SessionModel CompletionModel ProcessorModel.
Open Scope nat_scope.
Open Scope list_scope.

Definition loc_eqb (x y : loc) : bool :=
  match x, y with
  | XTasks, XTasks | XRunning, XRunning | XEnabled, XEnabled | XOldt, XOldt | XNewt, XNewt | XShutdown, XShutdown | XReadPipe, XReadPipe
  | XHandler, XHandler | XSession, XSession => true
  | XUser m, XUser n => Nat.eqb m n
  | _, _ => false
  end.
Lemma loc_eqb_refl x : loc_eqb x x = true.
Proof. destruct x; try reflexivity. apply Nat.eqb_refl. Qed.
Lemma loc_eqb_eq x y : loc_eqb x y = true -> y = x.
Proof. destruct x, y; try discriminate; try reflexivity. cbn. intros H. apply Nat.eqb_eq in H. subst. reflexivity. Qed.
(** [d]: the life of [x] is over; it is ended by thread 0, once, and after that [x] is not used. *)
Definition life1 (x : loc) (d : bool) (e : ev) : option bool :=
  match e_op e with
  | ORead y | OWrite y => if loc_eqb x y then if d then None else Some false else Some d
  | OFree y => if loc_eqb x y then if d then None else match e_thr e with 0 => Some true | _ => None end else Some d
  | _ => Some d
  end.
Fixpoint life (x : loc) (d : bool) (t : list ev) : option bool :=
  match t with [] => Some d | e :: t' => match life1 x d e with Some d' => life x d' t' | None => None end end.
Lemma life_app x t : forall d u, life x d (t ++ u) = match life x d t with Some d' => life x d' u | None => None end.
Proof. induction t as [|e t IH]; intros d u; [reflexivity|]. cbn [app life]. destruct (life1 x d e); [apply IH|reflexivity]. Qed.
Lemma life1_uses x d e d' : life1 x d e = Some d' -> uses x e -> d = false /\ (d' = true -> e = mkEv 0 (OFree x)).
Proof.
  unfold life1, uses, writes. destruct e as [i o]. cbn [e_op e_thr]. intros H [->|[->| ->]]; rewrite loc_eqb_refl in H; destruct d; try discriminate; split; try reflexivity.
  - intros ->. discriminate.
  - intros ->. discriminate.
  - intros _. destruct i; [reflexivity|discriminate].
Qed.
Lemma life1_unused x d e d' : life1 x d e = Some d' -> ~ uses x e -> d' = d.
Proof.
  unfold life1, uses, writes. destruct e as [i o]. cbn [e_op e_thr]. intros H N.
  destruct o; try congruence; (destruct (loc_eqb x x0) eqn:Ex; [apply loc_eqb_eq in Ex; subst; exfalso; apply N; auto|congruence]).
Qed.
Lemma uses_dec x e : uses x e \/ ~ uses x e.
Proof.
  unfold uses, writes. destruct e as [i o]. cbn [e_op].
  destruct o; try (right; intros [H|[H|H]]; discriminate); (destruct (loc_eqb x x0) eqn:Ex;
    [apply loc_eqb_eq in Ex; subst; auto|right; intros [H|[H|H]]; try discriminate; injection H as ->; rewrite loc_eqb_refl in Ex; discriminate]).
Qed.
Lemma life_over x t : forall d, life x true t = Some d -> d = true /\ forall q e, nth_error t q = Some e -> ~ uses x e.
Proof.
  induction t as [|e t IH]; intros d H; cbn [life] in H.
  - split; [congruence|]. intros [|q] e; discriminate.
  - destruct (life1 x true e) as [d1|] eqn:E1; [|discriminate].
    assert (N : ~ uses x e) by (intros U; destruct (life1_uses _ _ _ _ E1 U); discriminate).
    apply (life1_unused _ _ _ _ E1) in N as Hd. subst d1. destruct (IH d H) as (Ed & Hq). split; [exact Ed|].
    intros [|q] e'; cbn [nth_error]; [congruence|apply Hq].
Qed.
Lemma life_end x t : life x false t = Some true -> exists p, nth_error t p = Some (mkEv 0 (OFree x)) /\ forall q e, nth_error t q = Some e -> uses x e -> q <= p.
Proof.
  induction t as [|e t IH]; intros H; cbn [life] in H; [discriminate|]. destruct (life1 x false e) as [[|]|] eqn:E1; [| |discriminate].
  - exists 0. split.
    + cbn [nth_error]. destruct (uses_dec x e) as [U|U]; [|apply (life1_unused _ _ _ _ E1) in U; discriminate]. destruct (life1_uses _ _ _ _ E1 U) as (_ & ->); reflexivity.
    + intros [|q] e' Hq U; [lia|]. exfalso. exact (proj2 (life_over _ _ _ H) q e' Hq U).
  - destruct (IH H) as (p & Hp & Hl). exists (S p). split; [exact Hp|]. intros [|q] e' Hq U; [lia|]. apply le_n_S, (Hl q e' Hq U).
Qed.

(** ** The keyboard *)
Definition kbd_members : list loc := [XEnabled; XOldt; XNewt; XShutdown; XReadPipe].
Definition gone (k : kbd) : bool := match k_m k with MGone => true | _ => false end.
Definition joined (k : kbd) : Prop := k_m k = MGone -> k_w k = WDone.
Lemma joined_step sgn a k k' : joined k -> k_step sgn a k = Some k' -> joined k'.
Proof.
  unfold joined. intros J Hs Hg.
  assert (Hk : k_m k = MGone \/ (k_m k = MDt3 /\ k_w k = WDone)).
  { unfold k_step in Hs. destruct a as [| | | |c|x| | |md].
    - left. assert (Hw : w_step sgn k = Some k') by (destruct (k_m k); congruence). clear Hs. unfold w_step in Hw.
      destruct (k_w k); try discriminate; try (unfold read_then in Hw; apply opt_map_inv in Hw as ((y & s1) & Hl & ->); apply getchar_inv in Hl as (r0 & e0 & cs & -> & _); exact Hg);
        try (apply opt_map_inv in Hw as (y & Hl & ->); apply lock_inv in Hl as (_ & ->); exact Hg).
      + destruct (k_enabled k); injection Hw as <-; exact Hg.
      + injection Hw as <-. exact Hg.
      + destruct (k_stop k); [injection Hw as <-; exact Hg|]. destruct (k_ready k); [destruct (k_eof k); [|discriminate]|]; injection Hw as <-; exact Hg.
      + injection Hw as <-. exact Hg.
    - unfold m_step in Hs. destruct (k_m k) eqn:Em; try discriminate; try (injection Hs as <-; discriminate);
        try (apply opt_map_inv in Hs as (y & Hl & ->); discriminate).
      + destruct (k_reader k); injection Hs as <-; discriminate.
      + right. destruct (k_w k); try discriminate. auto.
    - left. destruct (k_m k) eqn:Em; try discriminate; (destruct (k_w k); try discriminate); injection Hs as <-; cbn in Hg; congruence.
    - left. destruct (k_m k) eqn:Em; try discriminate; (destruct (k_w k); try discriminate); injection Hs as <-; cbn in Hg; congruence.
    - destruct (k_m k) eqn:Em, c; try discriminate; injection Hs as <-; discriminate.
    - left. destruct (k_m k) eqn:Em; try discriminate; injection Hs as <-; cbn in Hg; congruence.
    - left. destruct (k_m k) eqn:Em; try discriminate; injection Hs as <-; cbn in Hg; congruence.
    - left. destruct (k_m k) eqn:Em; try discriminate; (destruct (k_ready k); [discriminate|]); injection Hs as <-; cbn in Hg; congruence.
    - left. destruct (k_m k) eqn:Em; try discriminate; injection Hs as <-; cbn in Hg; congruence. }
  apply (step_done sgn a k k'); [|exact Hs]. destruct Hk as [Hk|(_ & Hk)]; auto.
Qed.
Lemma life_none x t : forallb (fun e => match e_op e with ORead y | OWrite y | OFree y => negb (loc_eqb x y) | _ => true end) t = true -> forall d, life x d t = Some d.
Proof.
  induction t as [|e t IH]; intros H d; [reflexivity|]. cbn [forallb] in H. apply andb_prop in H as (H1 & H2). cbn [life]. unfold life1.
  destruct (e_op e); try (apply IH; exact H2); (destruct (loc_eqb x x0); [discriminate|apply IH, H2]).
Qed.
Lemma worker_gone sgn a k k' : k_step sgn a k = Some k' -> a <> MGo -> (forall c, a <> MCall c) -> gone k' = gone k.
Proof.
  intros Hs Na Nc. unfold gone. replace (k_m k') with (k_m k); [reflexivity|]. unfold k_step in Hs. destruct a as [| | | |c|x| | |md]; try congruence.
  - assert (Hw : w_step sgn k = Some k') by (destruct (k_m k); congruence). clear Hs. unfold w_step in Hw.
    destruct (k_w k); try discriminate; try (unfold read_then in Hw; apply opt_map_inv in Hw as ((y & s1) & Hl & ->); apply getchar_inv in Hl as (r0 & e0 & cs & -> & _); reflexivity);
      try (apply opt_map_inv in Hw as (y & Hl & ->); apply lock_inv in Hl as (_ & ->); reflexivity).
    + destruct (k_enabled k); injection Hw as <-; reflexivity.
    + injection Hw as <-. reflexivity.
    + destruct (k_stop k); [injection Hw as <-; reflexivity|]. destruct (k_ready k); [destruct (k_eof k); [|discriminate]|]; injection Hw as <-; reflexivity.
    + injection Hw as <-. reflexivity.
  - destruct (k_m k) eqn:Em; try discriminate; (destruct (k_w k); try discriminate); injection Hs as <-; cbn; congruence.
  - destruct (k_m k) eqn:Em; try discriminate; (destruct (k_w k); try discriminate); injection Hs as <-; cbn; congruence.
  - destruct (k_m k) eqn:Em; try discriminate; injection Hs as <-; cbn; congruence.
  - destruct (k_m k) eqn:Em; try discriminate; injection Hs as <-; cbn; congruence.
  - destruct (k_m k) eqn:Em; try discriminate; (destruct (k_ready k); [discriminate|]); injection Hs as <-; cbn; congruence.
  - destruct (k_m k) eqn:Em; try discriminate; injection Hs as <-; cbn; congruence.
Qed.
Lemma kbd_life sgn a k k' x : joined k -> k_step sgn a k = Some k' -> In x kbd_members -> life x (gone k) (k_events a k) = Some (gone k').
Proof.
  intros J Hs Hx.
  assert (Hmain : a = MGo -> life x (gone k) (k_events a k) = Some (gone k')).
  { intros ->. cbn [k_events]. unfold k_step in Hs. assert (Hm : m_step k = Some k') by (destruct (k_m k); congruence). clear Hs. unfold m_step in Hm. unfold gone, m_ops.
    destruct (k_m k) eqn:Em; try discriminate;
      try (injection Hm as <-; cbn [to_m k_m]; destruct Hx as [<-|[<-|[<-|[<-|[<-|[]]]]]]; reflexivity);
      try (apply opt_map_inv in Hm as (y & Hl & ->); cbn [to_m k_m]; destruct Hx as [<-|[<-|[<-|[<-|[<-|[]]]]]]; reflexivity).
    - destruct (k_reader k); injection Hm as <-; cbn [to_m k_m]; destruct Hx as [<-|[<-|[<-|[<-|[<-|[]]]]]]; reflexivity.
    - destruct (k_w k); try discriminate. injection Hm as <-. cbn [to_m k_m]. destruct Hx as [<-|[<-|[<-|[<-|[<-|[]]]]]]; reflexivity. }
  destruct a as [| | | |c|y| | |md]; try (exact (Hmain eq_refl)); clear Hmain;
    try (rewrite (worker_gone sgn _ k k' Hs) by discriminate; cbn [k_events]; try reflexivity).
  - assert (Hd : gone k = false).
    { unfold gone. destruct (k_m k) eqn:Em; try reflexivity. unfold k_step in Hs. rewrite Em in Hs. unfold w_step in Hs. rewrite (J Em) in Hs. discriminate. }
    rewrite Hd. unfold w_ops. destruct (k_w k); destruct Hx as [<-|[<-|[<-|[<-|[<-|[]]]]]]; try reflexivity; destruct (k_enabled k); reflexivity.
  - assert (Hd : gone k = false).
    { unfold gone. destruct (k_m k) eqn:Em; try reflexivity. unfold k_step in Hs. rewrite Em, (J Em) in Hs. discriminate. }
    rewrite Hd. destruct Hx as [<-|[<-|[<-|[<-|[<-|[]]]]]]; reflexivity.
  - cbn [k_events life]. unfold k_step in Hs. unfold gone. destruct (k_m k), c; try discriminate; injection Hs as <-; reflexivity.
Qed.
Lemma kbd_others a k x : x = XHandler \/ x = XSession -> forall d, life x d (k_events a k) = Some d.
Proof.
  intros Hx d. apply life_none. destruct a as [| | | |c|y| | |md]; try reflexivity; cbn [k_events].
  - unfold w_ops. destruct (k_w k); try (destruct Hx as [-> | ->]; reflexivity); destruct (k_enabled k); destruct Hx as [-> | ->]; reflexivity.
  - unfold m_ops. destruct (k_m k); destruct Hx as [-> | ->]; reflexivity.
  - destruct Hx as [-> | ->]; reflexivity.
Qed.

(** ** The session *)
Section Session.
Context (E : env) (sgn : bool) (fuel : nat) (tty : bool) (color : list event -> bool * bool).
Definition over (s : local) : bool := match lc_main s with LOver => true | _ => false end.
Record einv (c : local * list ev) : Prop := mkEinv {
  e_joined : joined (lc_kbd (fst c));
  e_kbd : forall x, In x kbd_members -> life x false (snd c) = Some (gone (lc_kbd (fst c)));
  e_ses : forall x, x = XHandler \/ x = XSession -> life x false (snd c) = Some (over (fst c));
  e_over : over (fst c) = true -> gone (lc_kbd (fst c)) = true }.
Lemma main_cases s s' : l_main E sgn fuel tty color s = LcOk s' ->
  (k_step sgn MGo (lc_kbd s) = Some (lc_kbd s') /\ main_ops s = m_ops (lc_kbd s) /\ over s = false /\ over s' = false) \/
  ((lc_kbd s' = lc_kbd s \/ exists c, k_step sgn (MCall c) (lc_kbd s) = Some (lc_kbd s')) /\
    (forall x, In x kbd_members -> forall d, life x d (by_ 0 (main_ops s)) = Some d) /\
    (forall x, x = XHandler \/ x = XSession -> life x (over s) (by_ 0 (main_ops s)) = Some (over s')) /\
    (over s' = true -> gone (lc_kbd s') = true)).
Proof.
  assert (Hk : forall l, forallb (fun o => match o with ORead y | OWrite y | OFree y => match y with XHandler | XSession | XTasks | XRunning => true | _ => false end | _ => true end) l = true ->
     forall x, In x kbd_members -> forall d, life x d (by_ 0 l) = Some d).
  { intros l Hl x Hx. apply life_none. unfold by_. rewrite forallb_forall in *. intros e He. apply in_map_iff in He as (o & <- & Ho). specialize (Hl o Ho). cbn [e_op].
    destruct o as [| |y|y|y| | | | |]; try reflexivity; destruct y; try discriminate; destruct Hx as [<-|[<-|[<-|[<-|[<-|[]]]]]]; reflexivity. }
  assert (Hcall : forall c p s0 s1, call_kbd sgn c p s0 = LcOk s1 -> lc_main s1 = p).
  { unfold call_kbd. intros c p s0 s1 H. destruct (k_step sgn (MCall c) (lc_kbd s0)); [|discriminate]. injection H as <-. reflexivity. }
  assert (Hin : forall next s1, in_kbd sgn s next = LcOk s1 -> (k_m (lc_kbd s) = MUser /\ next = LcOk s1) \/
     (k_m (lc_kbd s) <> MUser /\ k_step sgn MGo (lc_kbd s) = Some (lc_kbd s1) /\ lc_main s1 = lc_main s)).
  { unfold in_kbd. intros next s1 H. destruct (k_m (lc_kbd s)) eqn:Em; try (left; split; [reflexivity|exact H]); right; (split; [discriminate|]);
      (destruct (k_step sgn MGo (lc_kbd s)) as [k|]; [|discriminate]); injection H as <-; split; reflexivity. }
  unfold l_main, main_ops, over. destruct (lc_main s) eqn:El; intros H.
  - apply Hin in H as [(Em & H)|(Em & H & Hm)].
    + right. rewrite Em. destruct (open_local _ _ _ _); try discriminate.
      * injection H as <-. split; [left; reflexivity|]. split; [apply Hk; reflexivity|]. split; [intros ? [-> | ->]; reflexivity|discriminate].
      * pose proof (Hcall _ _ _ _ H) as Hm. rewrite Hm. apply call_kbd_inv in H. split; [right; eauto|]. split; [apply Hk; reflexivity|]. split; [intros ? [-> | ->]; reflexivity|discriminate].
    + left. split; [exact H|]. rewrite Hm. split; [|auto]. destruct (k_m (lc_kbd s)); congruence.
  - right. destruct (lc_stopped s); [discriminate|]. destruct (lc_queue s) as [|k q]; [discriminate|]. destruct (is_command tty color k (lc_proc s)).
    + pose proof (Hcall _ _ _ _ H) as Hm. rewrite Hm. apply call_kbd_inv in H. split; [right; eauto|]. split; [apply Hk; reflexivity|]. split; [intros ? [-> | ->]; reflexivity|discriminate].
    + destruct (l_press _ _ _ _ _ _); try discriminate; injection H as <-; cbn [add_thrown add_done set_proc set_queue lc_main lc_kbd]; rewrite El; (split; [left; reflexivity|]); (split; [apply Hk; reflexivity|]);
        (split; [intros ? [-> | ->]; reflexivity|discriminate]).
  - apply Hin in H as [(Em & H)|(Em & H & Hm)].
    + right. rewrite Em. destruct (l_press _ _ _ _ _ _); try discriminate.
      * pose proof (Hcall _ _ _ _ H) as Hm. rewrite Hm. apply call_kbd_inv in H. split; [right; eauto|]. split; [apply Hk; reflexivity|]. split; [intros ? [-> | ->]; reflexivity|discriminate].
      * injection H as <-. split; [left; reflexivity|]. split; [apply Hk; reflexivity|]. split; [intros ? [-> | ->]; reflexivity|discriminate].
    + left. split; [exact H|]. rewrite Hm. split; [|auto]. destruct (k_m (lc_kbd s)); congruence.
  - apply Hin in H as [(Em & H)|(Em & H & Hm)].
    + right. rewrite Em. injection H as <-. split; [left; reflexivity|]. split; [apply Hk; reflexivity|]. split; [intros ? [-> | ->]; reflexivity|discriminate].
    + left. split; [exact H|]. rewrite Hm. split; [|auto]. destruct (k_m (lc_kbd s)); congruence.
  - destruct (k_m (lc_kbd s)) eqn:Em; try (apply Hin in H as [(_ & H)|(_ & H & Hm)]; [discriminate H|left; split; [exact H|]; rewrite Hm; auto]).
    right. injection H as <-. split; [left; reflexivity|]. split; [apply Hk; reflexivity|]. split; [intros ? [-> | ->]; reflexivity|]. intros _. unfold gone. cbn [set_main lc_kbd]. rewrite Em. reflexivity.
  - destruct (lc_stopped s); [discriminate|]. destruct (lc_queue s); discriminate.
Qed.
Lemma einv_step a c c' : einv c -> racel_step E sgn fuel tty color a c = Some c' -> einv c'.
Proof.
  destruct c as [s t]. intros [V1 V2 V3 V4] H. cbn [fst snd] in *.
  assert (Hquiet : forall u s1, lc_kbd s1 = lc_kbd s -> lc_main s1 = lc_main s ->
     (forall x, In x (XHandler :: XSession :: kbd_members) -> forall d, life x d u = Some d) -> einv (s1, t ++ u)).
  { intros u s1 Ek Em Hu. unfold over in *. split; cbn [fst snd]; unfold over; rewrite ?Ek, ?Em; auto.
    - intros x Hx. rewrite life_app, (V2 x Hx). apply Hu. right. right. exact Hx.
    - intros x Hx. rewrite life_app, (V3 x Hx). apply Hu. destruct Hx as [-> | ->]; cbn; auto. }
  destruct a as [a|i|]; cbn [racel_step] in H.
  - destruct a as [|ka| |].
    + destruct (l_step E sgn fuel tty color LMain s) as [s'| | | |] eqn:El; try discriminate. injection H as <-. cbn [l_events]. cbn [l_step] in El.
      apply main_cases in El as [(Hk & -> & Ho & Ho')|(Hk & H1 & H2 & H3)].
      * split; cbn [fst snd].
        -- exact (joined_step sgn MGo _ _ V1 Hk).
        -- intros x Hx. rewrite life_app, (V2 x Hx). exact (kbd_life sgn MGo _ _ x V1 Hk Hx).
        -- intros x Hx. rewrite life_app, (V3 x Hx), Ho, Ho'. exact (kbd_others MGo (lc_kbd s) x Hx false).
        -- rewrite Ho'. discriminate.
      * assert (Hg : joined (lc_kbd s') /\ gone (lc_kbd s') = gone (lc_kbd s)).
        { destruct Hk as [->|(c & Hk)]; [auto|]. split; [exact (joined_step sgn _ _ _ V1 Hk)|].
          pose proof (kbd_life sgn _ _ _ XEnabled V1 Hk (or_introl eq_refl)) as L. cbn [k_events life] in L. congruence. }
        destruct Hg as (Hg1 & Hg2). split; cbn [fst snd].
        -- exact Hg1.
        -- intros x Hx. rewrite life_app, (V2 x Hx), Hg2. apply H1, Hx.
        -- intros x Hx. rewrite life_app, (V3 x Hx). apply H2, Hx.
        -- exact H3.
    + destruct (l_step E sgn fuel tty color (LKbd ka) s) as [s'| | | |] eqn:El; try discriminate. injection H as <-. cbn [l_events]. cbn [l_step] in El.
      assert (Hk : k_step sgn ka (lc_kbd s) = Some (lc_kbd s') /\ lc_main s' = lc_main s /\ ka <> MGo /\ forall c, ka <> MCall c).
      { destruct ka; try discriminate; (destruct (k_step sgn _ (lc_kbd s)) as [k|]; [|discriminate]); injection El as <-; repeat split; discriminate. }
      destruct Hk as (Hk & Em & N1 & N2). unfold over in *. split; cbn [fst snd]; unfold over; rewrite ?Em.
      * exact (joined_step sgn ka _ _ V1 Hk).
      * intros x Hx. rewrite life_app, (V2 x Hx). exact (kbd_life sgn ka _ _ x V1 Hk Hx).
      * intros x Hx. rewrite life_app, (V3 x Hx). apply kbd_others, Hx.
      * intros Ho. rewrite (worker_gone sgn ka _ _ Hk N1 N2). auto.
    + discriminate.
    + destruct (l_step E sgn fuel tty color LDestroy s) as [s'| | | |] eqn:El; try discriminate. injection H as <-. cbn [l_events]. cbn [l_step] in El. rewrite app_nil_r.
      destruct (lc_main s) eqn:Em; try discriminate. assert (Hm : lc_main s' = LDtor) by (unfold call_kbd in El; destruct (k_step sgn (MCall Destroy) (lc_kbd s)); [|discriminate]; injection El as <-; reflexivity).
      apply call_kbd_inv in El. unfold over in *. rewrite Em in *. split; cbn [fst snd]; unfold over; rewrite ?Hm.
      * exact (joined_step sgn _ _ _ V1 El).
      * intros x Hx. rewrite (V2 x Hx). pose proof (kbd_life sgn _ _ _ XEnabled V1 El (or_introl eq_refl)) as L. cbn [k_events life] in L. congruence.
      * exact V3.
      * discriminate.
  - assert (Hc : c' = (set_stopped s, t ++ by_ i [OAcq SchedM; OWrite XRunning; ORel SchedM])) by (destruct i as [|[|i]]; congruence).
    subst c'. apply Hquiet; [reflexivity|reflexivity|]. intros x Hx. apply life_none. destruct Hx as [<-|[<-|[<-|[<-|[<-|[<-|[<-|[]]]]]]]]; reflexivity.
  - destruct (lc_main s) eqn:Em; try discriminate. injection H as <-. apply Hquiet; [reflexivity|exact Em|]. intros x Hx. apply life_none. destruct Hx as [<-|[<-|[<-|[<-|[<-|[<-|[<-|[]]]]]]]]; reflexivity.
Qed.
Lemma einv_init m junk w : einv (racel_init m junk w).
Proof.
  split; cbn [racel_init fst snd].
  - discriminate.
  - intros x [<-|[<-|[<-|[<-|[<-|[]]]]]]; reflexivity.
  - intros ? [-> | ->]; reflexivity.
  - discriminate.
Qed.
Theorem freed_last m junk w l s t : racel_run E sgn fuel tty color l (racel_init m junk w) = Some (s, t) -> lc_main s = LOver ->
  forall x, In x [XEnabled; XOldt; XNewt; XShutdown; XReadPipe; XHandler; XSession] ->
  exists p, nth_error t p = Some (mkEv 0 (OFree x)) /\ forall q e, nth_error t q = Some e -> uses x e -> q <> p -> hb t q p.
Proof.
  intros H Ho x Hx. destruct (racel_run_inv E sgn fuel tty color einv einv_step l _ (s, t) (einv_init m junk w) H) as [V1 V2 V3 V4]. cbn [fst snd] in *.
  assert (Ov : over s = true) by (unfold over; rewrite Ho; reflexivity).
  assert (Hl : life x false t = Some true).
  { destruct (in_app_or kbd_members [XHandler; XSession] x Hx) as [Hk|Hk].
    - rewrite (V2 x Hk), (V4 Ov). reflexivity.
    - rewrite (V3 x), Ov; [reflexivity|]. destruct Hk as [<-|[<-|[]]]; auto. }
  destruct (life_end x t Hl) as (p & Hp & Hq). exists p. split; [exact Hp|]. intros q e He U N. pose proof (Hq q e He U) as L.
  destruct (Nat.eq_dec (e_thr e) 0) as [E0|E0].
  - apply (po t q p e _ ltac:(lia) He Hp). exact E0.
  - apply (kinv_order _ t x q p e _ (reach_linv E sgn fuel tty color m junk w l s t H) ltac:(lia) He Hp); [exact E0|exact U|right; right; reflexivity|right; right; reflexivity].
Qed.

(** ** The queue *)
Definition puts (i : nat) (t : list ev) : nat :=
  length (filter (fun e => Nat.eqb (e_thr e) i && match e_op e with OWrite XTasks => true | _ => false end) t).
Lemma puts_app i t u : puts i (t ++ u) = puts i t + puts i u.
Proof. unfold puts. rewrite filter_app, app_length. reflexivity. Qed.
Definition qinv (c : local * list ev) : Prop := puts 1 (snd c) = puts 0 (snd c) + length (lc_queue (fst c)).
Lemma m_ops_puts k i : puts i (by_ 0 (m_ops k)) = 0.
Proof. unfold m_ops. destruct i; destruct (k_m k); reflexivity. Qed.
Lemma posted_puts a k k' : k_step sgn a k = Some k' -> a <> MGo -> puts 1 (k_events a k) = length (posted k k') /\ puts 0 (k_events a k) = 0.
Proof.
  intros Hs Na.
  assert (Hz : forall j, k_keys j = k_keys k -> length (posted k j) = 0) by (intros j Hj; unfold posted; rewrite Hj, skipn_all; reflexivity).
  unfold k_step in Hs. destruct a as [| | | |c|x| | |md]; cbn [k_events]; try congruence.
  - assert (Hw : w_step sgn k = Some k') by (destruct (k_m k); congruence). clear Hs. unfold w_step in Hw. unfold w_ops.
    destruct (k_w k); try discriminate; try (unfold read_then in Hw; apply opt_map_inv in Hw as ((y & s1) & Hl & ->); apply getchar_inv in Hl as (r0 & e0 & cs & -> & _); rewrite Hz; [split; reflexivity|reflexivity]);
      try (apply opt_map_inv in Hw as (y & Hl & ->); apply lock_inv in Hl as (_ & ->); rewrite Hz; [split; reflexivity|reflexivity]).
    + destruct (k_enabled k); injection Hw as <-; (rewrite Hz; [split; reflexivity|reflexivity]).
    + injection Hw as <-. rewrite Hz; [split; reflexivity|reflexivity].
    + destruct (k_stop k); [injection Hw as <-; rewrite Hz; [split; reflexivity|reflexivity]|]. destruct (k_ready k); [destruct (k_eof k); [|discriminate]|]; injection Hw as <-; (rewrite Hz; [split; reflexivity|reflexivity]).
    + injection Hw as <-. split; [|reflexivity]. unfold posted. cbn [to_w add_key k_keys]. rewrite skipn_app, skipn_all, Nat.sub_diag. reflexivity.
  - destruct (k_m k) eqn:Em; try discriminate; (destruct (k_w k); try discriminate); injection Hs as <-; (rewrite Hz; [split; reflexivity|reflexivity]).
  - destruct (k_m k) eqn:Em; try discriminate; (destruct (k_w k); try discriminate); injection Hs as <-; (rewrite Hz; [split; reflexivity|reflexivity]).
  - destruct (k_m k) eqn:Em, c; try discriminate; injection Hs as <-; (rewrite Hz; [split; reflexivity|reflexivity]).
  - destruct (k_m k) eqn:Em; try discriminate; injection Hs as <-; (rewrite Hz; [split; reflexivity|reflexivity]).
  - destruct (k_m k) eqn:Em; try discriminate; injection Hs as <-; (rewrite Hz; [split; reflexivity|reflexivity]).
  - destruct (k_m k) eqn:Em; try discriminate; (destruct (k_ready k); [discriminate|]); injection Hs as <-; (rewrite Hz; [split; reflexivity|reflexivity]).
  - destruct (k_m k) eqn:Em; try discriminate; injection Hs as <-; (rewrite Hz; [split; reflexivity|reflexivity]).
Qed.
Lemma main_queue s s' : l_main E sgn fuel tty color s = LcOk s' ->
  puts 1 (by_ 0 (main_ops s)) = 0 /\ length (lc_queue s) = puts 0 (by_ 0 (main_ops s)) + length (lc_queue s').
Proof.
  assert (Hcall : forall c p s0 s1, call_kbd sgn c p s0 = LcOk s1 -> lc_queue s1 = lc_queue s0).
  { unfold call_kbd. intros c p s0 s1 H. destruct (k_step sgn (MCall c) (lc_kbd s0)); [|discriminate]. injection H as <-. reflexivity. }
  assert (Hin : forall next s1, in_kbd sgn s next = LcOk s1 -> (k_m (lc_kbd s) = MUser /\ next = LcOk s1) \/ (k_m (lc_kbd s) <> MUser /\ lc_queue s1 = lc_queue s)).
  { unfold in_kbd. intros next s1 H. destruct (k_m (lc_kbd s)) eqn:Em; try (left; split; [reflexivity|exact H]); right; (split; [discriminate|]);
      (destruct (k_step sgn MGo (lc_kbd s)) as [k|]; [|discriminate]); injection H as <-; reflexivity. }
  pose proof (m_ops_puts (lc_kbd s)) as Hp.
  assert (Hk : forall (l : list RaceSpec.op) i, k_m (lc_kbd s) <> MUser -> puts i (by_ 0 (match k_m (lc_kbd s) with MUser => l | _ => m_ops (lc_kbd s) end)) = 0).
  { intros l i N. destruct (k_m (lc_kbd s)); try apply Hp. congruence. }
  unfold l_main, main_ops. destruct (lc_main s) eqn:El; intros H.
  - apply Hin in H as [(Em & H)|(Em & H)]; [|rewrite !Hk, H by exact Em; auto]. rewrite Em. destruct (open_local _ _ _ _); try discriminate; [injection H as <-; auto|]. apply Hcall in H. rewrite H. auto.
  - destruct (lc_stopped s); [discriminate|]. destruct (lc_queue s) as [|k q] eqn:Eq; [discriminate|]. destruct (is_command tty color k (lc_proc s)).
    + apply Hcall in H. rewrite H. auto.
    + destruct (l_press _ _ _ _ _ _); try discriminate; injection H as <-; auto.
  - apply Hin in H as [(Em & H)|(Em & H)]; [|rewrite !Hk, H by exact Em; auto]. rewrite Em. destruct (l_press _ _ _ _ _ _); try discriminate; [apply Hcall in H; rewrite H; auto|injection H as <-; auto].
  - apply Hin in H as [(Em & H)|(Em & H)]; [|rewrite !Hk, H by exact Em; auto]. rewrite Em. injection H as <-. auto.
  - destruct (k_m (lc_kbd s)) eqn:Em; try (apply Hin in H as [(_ & H)|(_ & H)]; [discriminate H|rewrite !Hp, H; auto]). injection H as <-. auto.
  - destruct (lc_stopped s); [discriminate|]. destruct (lc_queue s); discriminate.
Qed.
Lemma qinv_step a c c' : qinv c -> racel_step E sgn fuel tty color a c = Some c' -> qinv c'.
Proof.
  destruct c as [s t]. unfold qinv. cbn [fst snd]. intros V H.
  destruct a as [a|i|]; cbn [racel_step] in H.
  - destruct a as [|ka| |].
    + destruct (l_step E sgn fuel tty color LMain s) as [s'| | | |] eqn:El; try discriminate. injection H as <-. cbn [fst snd l_events]. cbn [l_step] in El.
      apply main_queue in El as (H1 & H2). rewrite !puts_app. lia.
    + destruct (l_step E sgn fuel tty color (LKbd ka) s) as [s'| | | |] eqn:El; try discriminate. injection H as <-. cbn [fst snd l_events]. cbn [l_step] in El.
      assert (Hk : exists k', k_step sgn ka (lc_kbd s) = Some k' /\ lc_queue s' = lc_queue s ++ posted (lc_kbd s) k' /\ ka <> MGo).
      { destruct ka; try discriminate; (destruct (k_step sgn _ (lc_kbd s)) as [k|]; [|discriminate]); injection El as <-; exists k; repeat split; discriminate. }
      destruct Hk as (k' & Hk & -> & N). destruct (posted_puts ka _ _ Hk N) as (P1 & P0). rewrite !puts_app, app_length. lia.
    + discriminate.
    + destruct (l_step E sgn fuel tty color LDestroy s) as [s'| | | |] eqn:El; try discriminate. injection H as <-. cbn [fst snd l_events]. cbn [l_step] in El. rewrite app_nil_r.
      destruct (lc_main s) eqn:Em; try discriminate. unfold call_kbd in El. destruct (k_step sgn (MCall Destroy) (lc_kbd s)); [|discriminate]. injection El as <-. exact V.
  - assert (Hc : c' = (set_stopped s, t ++ by_ i [OAcq SchedM; OWrite XRunning; ORel SchedM])) by (destruct i as [|[|i]]; congruence).
    subst c'. cbn [fst snd set_stopped lc_queue]. rewrite !puts_app. unfold puts at 2 4. cbn [by_ map filter e_op]. rewrite !Bool.andb_false_r. cbn [length]. lia.
  - destruct (lc_main s) eqn:Em; try discriminate. injection H as <-. cbn [fst snd]. rewrite !puts_app. cbn. unfold puts in *. lia.
Qed.
Theorem queue_writes m junk w l s t : racel_run E sgn fuel tty color l (racel_init m junk w) = Some (s, t) ->
  length (filter (fun e => Nat.eqb (e_thr e) 1 && match e_op e with OWrite XTasks => true | _ => false end) t) =
  length (filter (fun e => Nat.eqb (e_thr e) 0 && match e_op e with OWrite XTasks => true | _ => false end) t) + length (lc_queue s).
Proof. intros H. exact (racel_run_inv E sgn fuel tty color qinv qinv_step l (racel_init m junk w) (s, t) eq_refl H). Qed.
End Session.
