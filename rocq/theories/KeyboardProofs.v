(** * Proofs about the keyboard *)

From Verif Require Import Base TerminalModel TelnetModel TelnetSpec TelnetProofs KeyboardModel KeyboardSpec.
Open Scope nat_scope.
Open Scope list_scope.

(** ** Mutual exclusion, wake-ups, the pipe *)
Definition wh (p : wpc) : bool := match p with WCheck | WUnlock => true | _ => false end.
Definition mh (p : mpc) : bool := match p with MAct3 | MAct4 | MAct5 | MDe2 | MDe3 => true | _ => false end.
Definition stopping (p : mpc) : bool := match p with MDt2 | MDt3 | MGone => true | _ => false end.
Definition mutex_ok (s : kbd) : Prop :=
  match k_mtx s with
  | None => wh (k_w s) = false /\ mh (k_m s) = false
  | Some Worker => wh (k_w s) = true /\ mh (k_m s) = false
  | Some Main => wh (k_w s) = false /\ mh (k_m s) = true
  end.
Definition sleep_ok (s : kbd) : Prop := k_w s = WSleep -> k_enabled s = true -> k_m s = MAct4.
Definition pipe_ok (s : kbd) : Prop :=
  (k_m s <> MKilled -> k_stop s = stopping (k_m s)) /\ k_reader s = match k_w s with WDone => false | _ => true end.

Ltac k_proj := cbn [k_w k_m k_enabled k_mtx k_stop k_reader k_tty k_old k_ready k_eof k_read k_cons k_keys
  to_w to_m with_mtx with_enabled with_pipe with_modes with_input add_key opt_map lock wh mh stopping] in *.
Lemma lock_inv who s s' : lock who s = Some s' -> k_mtx s = None /\ s' = with_mtx (Some who) s.
Proof. unfold lock. destruct (k_mtx s); [discriminate|]. intros [= <-]. split; reflexivity. Qed.
Lemma opt_map_inv {A B} (f : A -> B) o y : opt_map f o = Some y -> exists x, o = Some x /\ y = f x.
Proof. destruct o; [|discriminate]. intros [= <-]. eauto. Qed.
Lemma getchar_inv s c s' : getchar s = Some (c, s') ->
  exists r e cs, s' = mkKbd (k_w s) (k_m s) (k_enabled s) (k_mtx s) (k_stop s) (k_reader s) (k_tty s) (k_old s) r e (k_read s ++ [c]) cs (k_keys s) /\ e = k_eof s /\
   ((k_ready s = c :: r /\ cs = k_cons s ++ [(true, c)]) \/ (k_ready s = [] /\ r = [] /\ k_eof s = true /\ cs = k_cons s /\ c = "000"%char)).
Proof.
  unfold getchar. destruct (k_ready s) as [|x r] eqn:Hr.
  - destruct (k_eof s) eqn:He; [|discriminate]. intros [= <- <-]. eexists [], true, _. split; [reflexivity|]. split; [reflexivity|]. right. auto 6.
  - intros [= <- <-]. eexists r, _, _. split; [reflexivity|]. split; [reflexivity|]. left. auto.
Qed.

(** What the steps of the keyboard thread do. *)
Inductive wstep_case (sgn : bool) (s : kbd) : kbd -> Prop :=
| ws_lock p : (k_w s = WLock \/ k_w s = WWoke) -> k_mtx s = None -> p = WCheck -> wstep_case sgn s (to_w p (with_mtx (Some Worker) s))
| ws_pass : k_w s = WCheck -> k_enabled s = true -> wstep_case sgn s (to_w WUnlock s)
| ws_sleep : k_w s = WCheck -> k_enabled s = false -> wstep_case sgn s (to_w WSleep (with_mtx None s))
| ws_unlock : k_w s = WUnlock -> wstep_case sgn s (to_w WSelect (with_mtx None s))
| ws_stop : k_w s = WSelect -> k_stop s = true -> wstep_case sgn s (to_w WDone (with_pipe true false s))
| ws_hit : k_w s = WSelect -> k_stop s = false -> (k_ready s <> [] \/ k_eof s = true) -> wstep_case sgn s (to_w WGet0 s)
| ws_get f c s1 : (k_w s, f) = (WGet0, get0 sgn) \/ (k_w s, f) = (WGet1, get1) \/ (k_w s, f) = (WGet2, get2) \/ (k_w s, f) = (WGet3, get3) ->
    getchar s = Some (c, s1) -> wstep_case sgn s (to_w (f c) s1)
| ws_notify k : k_w s = WNotify k -> wstep_case sgn s (to_w WLock (add_key k s)).
Lemma w_step_cases sgn s s' : w_step sgn s = Some s' -> wstep_case sgn s s'.
Proof.
  unfold w_step. destruct (k_w s) eqn:Hw; intros H; try discriminate.
  - apply opt_map_inv in H as (x & H & ->). apply lock_inv in H as (H & ->). apply ws_lock; auto.
  - destruct (k_enabled s) eqn:He; injection H as <-; [apply ws_pass|apply ws_sleep]; assumption.
  - apply opt_map_inv in H as (x & H & ->). apply lock_inv in H as (H & ->). apply ws_lock; auto.
  - injection H as <-. apply ws_unlock; assumption.
  - destruct (k_stop s) eqn:Hst; [injection H as <-; apply ws_stop; assumption|]. destruct (k_ready s) eqn:Hr; [destruct (k_eof s) eqn:He; [|discriminate]|]; injection H as <-; (apply ws_hit; [assumption|assumption|]); [right; assumption|left; rewrite Hr; discriminate].
  - apply opt_map_inv in H as ((c & s1) & H & ->). apply (ws_get _ _ (get0 sgn) c s1); [rewrite Hw; auto 6|exact H].
  - apply opt_map_inv in H as ((c & s1) & H & ->). apply (ws_get _ _ get1 c s1); [rewrite Hw; auto 6|exact H].
  - apply opt_map_inv in H as ((c & s1) & H & ->). apply (ws_get _ _ get2 c s1); [rewrite Hw; auto 6|exact H].
  - apply opt_map_inv in H as ((c & s1) & H & ->). apply (ws_get _ _ get3 c s1); [rewrite Hw; auto 6|exact H].
  - injection H as <-. apply ws_notify; assumption.
Qed.
Definition gets (p : wpc) : bool := match p with WGet0 | WGet1 | WGet2 | WGet3 => true | _ => false end.
Definition after_get (p : wpc) : bool := match p with WGet1 | WGet2 | WGet3 | WNotify _ => true | _ => false end.
Lemma get_next sgn f c p : (p, f) = (WGet0, get0 sgn) \/ (p, f) = (WGet1, get1) \/ (p, f) = (WGet2, get2) \/ (p, f) = (WGet3, get3) ->
  gets p = true /\ after_get (f c) = true.
Proof.
  unfold get0, get1, get2, get3. intros [H|[H|[H|H]]]; injection H as -> ->; (split; [reflexivity|]);
  repeat match goal with |- context [if ?b then _ else _] => destruct b end; reflexivity.
Qed.

Lemma safe_step sgn a s s' : mutex_ok s -> sleep_ok s -> pipe_ok s -> k_step sgn a s = Some s' -> mutex_ok s' /\ sleep_ok s' /\ pipe_ok s'.
Proof.
  unfold mutex_ok, sleep_ok, pipe_ok. intros Hm Hz (Hp & Hr) Hs. assert (Hk : k_m s <> MKilled) by (intros E; unfold k_step in Hs; rewrite E in Hs; discriminate).
  specialize (Hp Hk).
  destruct a as [| | | |c|t| | |md]; unfold k_step in Hs.
  - assert (Hw : w_step sgn s = Some s') by (destruct (k_m s); congruence). clear Hs. apply w_step_cases in Hw.
    destruct Hw as [p Hw Hmt ->|Hw He|Hw He|Hw|Hw Hst|Hw Hst Hq|f c s1 Hf Hg|k Hw].
    + rewrite Hmt in Hm. k_proj. split; [split; [reflexivity|apply Hm]|]. split; [discriminate|]. split; [intros _; exact Hp|]. destruct Hw as [Hw|Hw]; rewrite Hw in Hr; exact Hr.
    + rewrite Hw in *. k_proj. destruct (k_mtx s) as [[]|]; destruct Hm as (Hm1 & Hm2); try discriminate. repeat split; auto; discriminate.
    + rewrite Hw in *. k_proj. destruct (k_mtx s) as [[]|]; destruct Hm as (Hm1 & Hm2); try discriminate. split; [auto|]. split; [congruence|]. auto.
    + rewrite Hw in *. k_proj. destruct (k_mtx s) as [[]|]; destruct Hm as (Hm1 & Hm2); try discriminate. split; [auto|]. split; [discriminate|]. auto.
    + rewrite Hw in *. k_proj. split; [exact Hm|]. split; [discriminate|]. split; [congruence|reflexivity].
    + rewrite Hw in *. k_proj. split; [exact Hm|]. split; [discriminate|]. auto.
    + apply getchar_inv in Hg as (r & e & cs & -> & _). destruct (get_next sgn f c _ Hf) as (H1 & H2). k_proj.
      destruct (k_w s); try discriminate H1; destruct (f c); try discriminate H2; (split; [exact Hm|]); (split; [discriminate|]); auto.
    + rewrite Hw in *. k_proj. split; [exact Hm|]. split; [discriminate|]. auto.
  - assert (Hw : m_step s = Some s') by (destruct (k_m s); congruence). clear Hs. unfold m_step in Hw.
    destruct (k_m s) eqn:Em; try discriminate; try (injection Hw as <-; k_proj; (split; [exact Hm|]); (split; [intros H1 H2; specialize (Hz H1 H2); discriminate|]); auto; fail).
    + apply opt_map_inv in Hw as (x & Hw & ->). apply lock_inv in Hw as (Hl & ->). rewrite Hl in Hm. k_proj. split; [split; [apply Hm|reflexivity]|]. split; [intros H1 H2; specialize (Hz H1 H2); discriminate|]. auto.
    + injection Hw as <-. k_proj. split; [exact Hm|]. split; [reflexivity|]. auto.
    + injection Hw as <-. destruct (k_w s) eqn:Ew; k_proj; rewrite ?Ew; (split; [exact Hm|]); (split; [discriminate|]); auto.
    + injection Hw as <-. k_proj. destruct (k_mtx s) as [[]|]; destruct Hm as (Hm1 & Hm2); try discriminate. split; [auto|]. split; [intros H1 H2; specialize (Hz H1 H2); discriminate|]. auto.
    + apply opt_map_inv in Hw as (x & Hw & ->). apply lock_inv in Hw as (Hl & ->). rewrite Hl in Hm. k_proj. split; [split; [apply Hm|reflexivity]|]. split; [intros H1 H2; specialize (Hz H1 H2); discriminate|]. auto.
    + injection Hw as <-. k_proj. split; [exact Hm|]. split; [discriminate|]. auto.
    + injection Hw as <-. k_proj. destruct (k_mtx s) as [[]|]; destruct Hm as (Hm1 & Hm2); try discriminate. split; [auto|]. split; [intros H1 H2; specialize (Hz H1 H2); discriminate|]. auto.
    + destruct (k_reader s) eqn:Er; injection Hw as <-; k_proj; (split; [exact Hm|]); (split; [intros H1 H2; specialize (Hz H1 H2); discriminate|]); rewrite ?Er; auto; split; congruence.
    + destruct (k_w s) eqn:Ew; try discriminate. injection Hw as <-. k_proj. rewrite Ew. split; [exact Hm|]. split; [discriminate|]. auto.
  - assert (Hw : k_w s = WSleep /\ s' = to_w WWoke s) by (destruct (k_m s), (k_w s); try discriminate; injection Hs as <-; auto). destruct Hw as (Ew & ->). rewrite Ew in *. k_proj.
    split; [exact Hm|]. split; [discriminate|]. auto.
  - assert (Hw : k_w s = WSelect /\ s' = to_w WDone (with_pipe (k_stop s) false s)) by (destruct (k_m s), (k_w s); try discriminate; injection Hs as <-; auto). destruct Hw as (Ew & ->). rewrite Ew in *. k_proj.
    split; [exact Hm|]. split; [discriminate|]. auto.
  - destruct (k_m s) eqn:Em; try discriminate. injection Hs as <-. k_proj. split; [destruct c; exact Hm|]. split; [intros H1 H2; specialize (Hz H1 H2); discriminate|]. split; [intros _; destruct c; exact Hp|exact Hr].
  - assert (Hw : s' = with_input (k_ready s ++ t) (k_eof s) s) by (destruct (k_m s); congruence). subst s'. k_proj. auto.
  - assert (Hw : s' = with_input (k_ready s) true s) by (destruct (k_m s); congruence). subst s'. k_proj. auto.
  - destruct (k_ready s); [destruct (k_m s); discriminate|]. destruct (k_m s); try discriminate; injection Hs as <-; k_proj; auto.
  - destruct (k_m s) eqn:Em; try discriminate; injection Hs as <-; k_proj; rewrite Em; auto.
Qed.

(** The steps other than the keyboard thread's. *)
Lemma step_alive sgn a s s' : k_step sgn a s = Some s' -> k_m s <> MKilled.
Proof. intros Hs E. unfold k_step in Hs. rewrite E in Hs. discriminate. Qed.
Lemma step_worker sgn s s' : k_step sgn WGo s = Some s' -> w_step sgn s = Some s'.
Proof. intros Hs. unfold k_step in Hs. destruct (k_m s); congruence. Qed.
Lemma step_main sgn s s' : k_step sgn MGo s = Some s' -> m_step s = Some s'.
Proof. intros Hs. unfold k_step in Hs. destruct (k_m s); congruence. Qed.

Lemma k_run_app sgn l1 l2 s : k_run sgn (l1 ++ l2) s = match k_run sgn l1 s with Some s' => k_run sgn l2 s' | None => None end.
Proof. revert s. induction l1 as [|a l1 IH]; intros s; [reflexivity|]. cbn [app k_run]. destruct (k_step sgn a s); [apply IH|reflexivity]. Qed.
Lemma k_run_inv sgn (P : kbd -> Prop) : (forall a s s', P s -> k_step sgn a s = Some s' -> P s') -> forall l s s', P s -> k_run sgn l s = Some s' -> P s'.
Proof.
  intros Hstep. induction l as [|a l IH]; intros s s' Hp H; cbn [k_run] in H; [injection H as <-; exact Hp|].
  destruct (k_step sgn a s) as [s1|] eqn:Hs; [|discriminate]. exact (IH s1 s' (Hstep _ _ _ Hp Hs) H).
Qed.
Lemma reach_safe sgn m j l s : kb_reaches sgn m j l s -> mutex_ok s /\ sleep_ok s /\ pipe_ok s.
Proof.
  apply (k_run_inv sgn (fun s => mutex_ok s /\ sleep_ok s /\ pipe_ok s)).
  - intros a s0 s1 (H1 & H2 & H3) Hs. exact (safe_step sgn a s0 s1 H1 H2 H3 Hs).
  - unfold mutex_ok, sleep_ok, pipe_ok. cbn. repeat split; discriminate.
Qed.

(** ** Decoding *)
Definition dstep (sgn : bool) (st : wpc * list key) (c : ascii) : wpc * list key :=
  match (match fst st with WGet1 => get1 c | WGet2 => get2 c | WGet3 => get3 c | _ => get0 sgn c end) with
  | WNotify k => (WGet0, snd st ++ [k])
  | q => (q, snd st)
  end.
Definition decoded (sgn : bool) (bytes : str) (st : wpc * list key) : wpc * list key := fold_left (dstep sgn) bytes st.
Definition place (p : wpc) : wpc := match p with WGet1 | WGet2 | WGet3 => p | _ => WGet0 end.
Definition dec_ok (sgn : bool) (s : kbd) : Prop := decoded sgn (k_read s) (WGet0, []) = (place (k_w s), found s).

Lemma same_read_dec sgn s s' : k_read s' = k_read s -> place (k_w s') = place (k_w s) -> found s' = found s -> dec_ok sgn s -> dec_ok sgn s'.
Proof. unfold dec_ok. intros -> -> ->. exact (fun H => H). Qed.
Lemma dec_get sgn f c s s1 : (k_w s, f) = (WGet0, get0 sgn) \/ (k_w s, f) = (WGet1, get1) \/ (k_w s, f) = (WGet2, get2) \/ (k_w s, f) = (WGet3, get3) ->
  getchar s = Some (c, s1) -> dec_ok sgn s -> dec_ok sgn (to_w (f c) s1).
Proof.
  intros Hf Hg Hd. apply getchar_inv in Hg as (r & e & cs & -> & _). unfold dec_ok, decoded, found in *. k_proj. rewrite fold_left_app, Hd. cbn [fold_left].
  destruct (get_next sgn f c _ Hf) as (_ & Ha). unfold dstep. cbn [fst snd].
  assert (Hq : match place (k_w s) with WGet1 => get1 c | WGet2 => get2 c | WGet3 => get3 c | _ => get0 sgn c end = f c) by (destruct Hf as [H|[H|[H|H]]]; injection H as -> ->; reflexivity).
  assert (Hn : match k_w s with WNotify k => [k] | _ => [] end = []) by (destruct Hf as [H|[H|[H|H]]]; injection H as -> _; reflexivity).
  rewrite Hq, Hn, app_nil_r. destruct (f c); try discriminate Ha; rewrite ?app_nil_r; reflexivity.
Qed.
Lemma dec_step sgn a s s' : dec_ok sgn s -> k_step sgn a s = Some s' -> dec_ok sgn s'.
Proof.
  intros Hd Hs. destruct a as [| | | |c|t| | |md].
  - apply step_worker, w_step_cases in Hs. destruct Hs as [p Hw Hmt ->|Hw He|Hw He|Hw|Hw Hst|Hw Hst Hq|f c s1 Hf Hg|k Hw].
    + destruct Hw as [Hw|Hw]; (apply (same_read_dec sgn s); [reflexivity| | |exact Hd]); unfold found; k_proj; rewrite Hw; reflexivity.
    + apply (same_read_dec sgn s); [reflexivity| | |exact Hd]; unfold found; k_proj; rewrite Hw; reflexivity.
    + apply (same_read_dec sgn s); [reflexivity| | |exact Hd]; unfold found; k_proj; rewrite Hw; reflexivity.
    + apply (same_read_dec sgn s); [reflexivity| | |exact Hd]; unfold found; k_proj; rewrite Hw; reflexivity.
    + apply (same_read_dec sgn s); [reflexivity| | |exact Hd]; unfold found; k_proj; rewrite Hw; reflexivity.
    + apply (same_read_dec sgn s); [reflexivity| | |exact Hd]; unfold found; k_proj; rewrite Hw; reflexivity.
    + exact (dec_get sgn f c s s1 Hf Hg Hd).
    + apply (same_read_dec sgn s); [reflexivity| | |exact Hd]; unfold found; k_proj; rewrite Hw; [reflexivity|]. apply app_nil_r.
  - apply step_main in Hs. unfold m_step, lock in Hs. destruct (k_m s); try discriminate; try (injection Hs as <-; exact Hd); try (destruct (k_mtx s); try discriminate; injection Hs as <-; exact Hd).
    + injection Hs as <-. destruct (k_w s) eqn:Ew; try exact Hd. apply (same_read_dec sgn s); [reflexivity| | |exact Hd]; unfold found; k_proj; rewrite Ew; reflexivity.
    + destruct (k_reader s); injection Hs as <-; exact Hd.
    + destruct (k_w s); try discriminate. injection Hs as <-. exact Hd.
  - assert (Hw : k_w s = WSleep /\ s' = to_w WWoke s) by (unfold k_step in Hs; destruct (k_m s), (k_w s); try discriminate; injection Hs as <-; auto). destruct Hw as (Ew & ->).
    apply (same_read_dec sgn s); [reflexivity| | |exact Hd]; unfold found; k_proj; rewrite Ew; reflexivity.
  - assert (Hw : k_w s = WSelect /\ s' = to_w WDone (with_pipe (k_stop s) false s)) by (unfold k_step in Hs; destruct (k_m s), (k_w s); try discriminate; injection Hs as <-; auto). destruct Hw as (Ew & ->).
    apply (same_read_dec sgn s); [reflexivity| | |exact Hd]; unfold found; k_proj; rewrite Ew; reflexivity.
  - unfold k_step in Hs. destruct (k_m s); try discriminate; injection Hs as <-; exact Hd.
  - unfold k_step in Hs. destruct (k_m s); try discriminate; injection Hs as <-; exact Hd.
  - unfold k_step in Hs. destruct (k_m s); try discriminate; injection Hs as <-; exact Hd.
  - unfold k_step in Hs. destruct (k_ready s); [destruct (k_m s); discriminate|]. destruct (k_m s); try discriminate; injection Hs as <-; exact Hd.
  - unfold k_step in Hs. destruct (k_m s); try discriminate; injection Hs as <-; exact Hd.
Qed.
Lemma reach_dec sgn m j l s : kb_reaches sgn m j l s -> dec_ok sgn s.
Proof. apply (k_run_inv sgn (dec_ok sgn) (dec_step sgn)). reflexivity. Qed.

Lemma is_byte_eq n c : n = byte_of c -> is_byte n c = true.
Proof. intros ->. apply N.eqb_refl. Qed.
Lemma not_byte n c d : byte_of d = n -> c <> d -> is_byte n c = false.
Proof. intros <- H. unfold is_byte. apply N.eqb_neq. intros E. apply H. unfold byte_of in E. rewrite <- (ascii_N_embedding c), <- (ascii_N_embedding d), E. reflexivity. Qed.
Lemma ordinary_first sgn c : ordinary c -> c <> "010"%char -> get0 sgn c = WNotify (KAscii c).
Proof.
  unfold ordinary. cbn [In]. intros H Hn. unfold get0.
  assert (Hd : forall d, In d ["004"; "008"; "012"; "013"; "027"; "127"; "255"]%char -> is_byte (byte_of d) c = false) by (intros d Hin; apply (not_byte _ c d eq_refl); intros ->; exact (H Hin)).
  pose proof (Hd "255"%char) as H1. pose proof (Hd "004"%char) as H2. pose proof (Hd "127"%char) as H3. pose proof (Hd "008"%char) as H4. pose proof (Hd "012"%char) as H5. pose proof (Hd "027"%char) as H6.
  cbn [In] in H1, H2, H3, H4, H5, H6.
  change (is_byte (byte_of "255") c) with (is_byte 255 c) in H1. change (is_byte (byte_of "004") c) with (is_byte 4 c) in H2. change (is_byte (byte_of "127") c) with (is_byte 127 c) in H3.
  change (is_byte (byte_of "008") c) with (is_byte 8 c) in H4. change (is_byte (byte_of "012") c) with (is_byte 12 c) in H5. change (is_byte (byte_of "027") c) with (is_byte 27 c) in H6.
  rewrite H1, H2, H3, H4, H5, H6, (not_byte 10 c "010" eq_refl Hn) by auto 10. destruct sgn; reflexivity.
Qed.
Lemma decode_one sgn t ks : plain_key t -> decoded sgn (linux_bytes t) (WGet0, ks) = (WGet0, ks ++ [key_of t]).
Proof.
  intros H. destruct t; try (destruct sgn; reflexivity).
  - destruct H as (H1 & H2). cbn. unfold dstep. cbn [fst snd]. rewrite ordinary_first by assumption. reflexivity.
  - destruct del, sgn; reflexivity.
Qed.
Lemma decode_all sgn ts : Forall plain_key ts -> forall ks, decoded sgn (flat_map linux_bytes ts) (WGet0, ks) = (WGet0, ks ++ map key_of ts).
Proof.
  induction 1 as [|t ts Ht _ IH]; intros ks; [cbn; rewrite app_nil_r; reflexivity|]. cbn [flat_map map]. unfold decoded in *. rewrite fold_left_app.
  pose proof (decode_one sgn t ks Ht) as H1. unfold decoded in H1. rewrite H1, IH, <- app_assoc. reflexivity.
Qed.
Lemma keys_found sgn m j l s ts : kb_reaches sgn m j l s -> Forall plain_key ts -> k_read s = flat_map linux_bytes ts -> found s = map key_of ts.
Proof. intros Hr Ht He. pose proof (reach_dec sgn m j l s Hr) as Hd. unfold dec_ok in Hd. rewrite He, decode_all in Hd by exact Ht. injection Hd as _ <-. reflexivity. Qed.

(** ** The bytes of the input *)
Definition input_ok (l : list kact) (s : kbd) : Prop :=
  typed_in l = map snd (k_cons s) ++ k_ready s /\ (~ hung_up l -> k_eof s = false /\ k_read s = bytes_by true s).
Lemma typed_snoc l a : typed_in (l ++ [a]) = typed_in l ++ match a with Type_ t => t | _ => [] end.
Proof. unfold typed_in. rewrite flat_map_app. cbn [flat_map]. rewrite app_nil_r. reflexivity. Qed.
Lemma hung_snoc l a : ~ hung_up (l ++ [a]) -> ~ hung_up l /\ a <> Hangup.
Proof. unfold hung_up. intros H. split; [intros H1; apply H, in_or_app; left; exact H1|intros ->; apply H, in_or_app; right; left; reflexivity]. Qed.
Lemma input_same l a s s' : match a with Type_ _ | Hangup => False | _ => True end ->
  k_ready s' = k_ready s -> k_cons s' = k_cons s -> k_eof s' = k_eof s -> k_read s' = k_read s -> input_ok l s -> input_ok (l ++ [a]) s'.
Proof.
  intros Ha H1 H2 H3 H4 (Ht & He). unfold input_ok, bytes_by. rewrite H1, H2, H3, H4, typed_snoc. split; [destruct a; try (destruct Ha; fail); rewrite app_nil_r; exact Ht|]. intros Hh. apply hung_snoc in Hh as (Hh & _). exact (He Hh).
Qed.
Lemma input_step sgn l a s s' : input_ok l s -> k_step sgn a s = Some s' -> input_ok (l ++ [a]) s'.
Proof.
  intros Hi Hs. destruct a as [| | | |c|t| | |md].
  - apply step_worker, w_step_cases in Hs. destruct Hs as [p Hw Hmt ->|Hw He|Hw He|Hw|Hw Hst|Hw Hst Hq|f c s1 Hf Hg|k Hw]; try (apply (input_same l _ s); [exact Logic.I|reflexivity|reflexivity|reflexivity|reflexivity|exact Hi]; fail).
    destruct Hi as (Ht & Hh). apply getchar_inv in Hg as (r & e & cs & -> & -> & [(Hr & ->)|(Hr & -> & Heof & -> & ->)]); unfold input_ok, bytes_by; k_proj; rewrite typed_snoc, app_nil_r.
    + split; [rewrite Ht, Hr, map_app, <- app_assoc; reflexivity|]. intros H. apply hung_snoc in H as (H & _). destruct (Hh H) as (H1 & H2). split; [exact H1|]. rewrite filter_app, map_app, H2. reflexivity.
    + rewrite Hr in Ht. split; [exact Ht|]. intros H. apply hung_snoc in H as (H & _). destruct (Hh H) as (H1 & H2). congruence.
  - apply step_main in Hs. unfold m_step, lock in Hs. apply (input_same l _ s); [exact Logic.I| | | | |exact Hi]; (destruct (k_m s); try discriminate; try (injection Hs as <-; reflexivity); try (destruct (k_mtx s); try discriminate; injection Hs as <-; reflexivity); try (destruct (k_w s); try discriminate; injection Hs as <-; reflexivity); destruct (k_reader s); injection Hs as <-; reflexivity).
  - unfold k_step in Hs. destruct (k_m s), (k_w s); try discriminate; injection Hs as <-; (apply (input_same l _ s); [exact Logic.I|reflexivity|reflexivity|reflexivity|reflexivity|exact Hi]).
  - unfold k_step in Hs. destruct (k_m s), (k_w s); try discriminate; injection Hs as <-; (apply (input_same l _ s); [exact Logic.I|reflexivity|reflexivity|reflexivity|reflexivity|exact Hi]).
  - unfold k_step in Hs. destruct (k_m s); try discriminate; injection Hs as <-; (apply (input_same l _ s); [exact Logic.I|reflexivity|reflexivity|reflexivity|reflexivity|exact Hi]).
  - assert (Hw : s' = with_input (k_ready s ++ t) (k_eof s) s) by (unfold k_step in Hs; destruct (k_m s); congruence). subst s'. destruct Hi as (Ht & Hh). unfold input_ok. k_proj. rewrite typed_snoc, Ht, <- app_assoc. split; [reflexivity|]. intros H. apply hung_snoc in H as (H & _). exact (Hh H).
  - assert (Hw : s' = with_input (k_ready s) true s) by (unfold k_step in Hs; destruct (k_m s); congruence). subst s'. destruct Hi as (Ht & Hh). unfold input_ok. k_proj. rewrite typed_snoc, Ht, app_nil_r. split; [reflexivity|]. intros H. apply hung_snoc in H as (_ & H). congruence.
  - unfold k_step in Hs. destruct (k_ready s) as [|c r] eqn:Hr; [destruct (k_m s); discriminate|]. destruct Hi as (Ht & Hh). unfold input_ok, bytes_by. rewrite typed_snoc, Ht, Hr.
    destruct (k_m s); try discriminate; injection Hs as <-; k_proj; (split; [rewrite app_nil_r, map_app, <- app_assoc; reflexivity|]); intros H; apply hung_snoc in H as (H & _); destruct (Hh H) as (H1 & H2); (split; [exact H1|]); rewrite filter_app, map_app; cbn; rewrite app_nil_r; exact H2.
  - unfold k_step in Hs. destruct (k_m s); try discriminate; injection Hs as <-; (apply (input_same l _ s); [exact Logic.I|reflexivity|reflexivity|reflexivity|reflexivity|exact Hi]).
Qed.
(** Invariants that depend on the actions so far. *)
Lemma k_run_hist sgn (P : list kact -> kbd -> Prop) : (forall l a s s', P l s -> k_step sgn a s = Some s' -> P (l ++ [a]) s') ->
  forall l2 l1 s s', P l1 s -> k_run sgn l2 s = Some s' -> P (l1 ++ l2) s'.
Proof.
  intros Hstep. induction l2 as [|a l2 IH]; intros l1 s s' Hp H; cbn [k_run] in H; [injection H as <-; rewrite app_nil_r; exact Hp|].
  destruct (k_step sgn a s) as [s1|] eqn:Hs; [|discriminate]. change (a :: l2) with ([a] ++ l2). rewrite app_assoc. exact (IH _ s1 s' (Hstep _ _ _ _ Hp Hs) H).
Qed.
Lemma reach_input sgn m j l s : kb_reaches sgn m j l s -> input_ok l s.
Proof. intros H. apply (k_run_hist sgn input_ok (input_step sgn) l [] (kbd_init m j) s); [split; [reflexivity|split; reflexivity]|exact H]. Qed.

(** ** Whether input is enabled *)
Definition on_ok (l : list kact) (s : kbd) : Prop :=
  match k_m s with
  | MUser | MDt0 | MDt1 | MDt2 | MDt3 | MGone | MKilled => k_enabled s = active_after true l
  | MAct4 | MAct5 => k_enabled s = true /\ active_after true l = true
  | MAct0 | MAct1 | MAct2 | MAct3 => active_after true l = true
  | MDe3 => k_enabled s = false /\ active_after true l = false
  | MDe0 | MDe1 | MDe2 => active_after true l = false
  end.
Lemma active_snoc l a b : active_after b (l ++ [a]) = match a with MCall Activate => true | MCall Deactivate => false | _ => active_after b l end.
Proof. revert b. induction l as [|x l IH]; intros b; [destruct a as [| | | |[]| | | |]; reflexivity|]. cbn [app active_after]. destruct x as [| | | |[]| | | |]; apply IH. Qed.
Lemma on_step sgn l a s s' : on_ok l s -> k_step sgn a s = Some s' -> on_ok (l ++ [a]) s'.
Proof.
  unfold on_ok. intros Ho Hs. rewrite active_snoc. destruct a as [| | | |c|t| | |md].
  - assert (E : k_m s' = k_m s /\ k_enabled s' = k_enabled s). { apply step_worker, w_step_cases in Hs. destruct Hs as [p Hw Hmt ->|Hw He|Hw He|Hw|Hw Hst|Hw Hst Hq|f c s1 Hf Hg|k Hw]; try (split; reflexivity). apply getchar_inv in Hg as (r & e & cs & -> & _). split; reflexivity. }
    destruct E as (-> & ->). exact Ho.
  - apply step_main in Hs. unfold m_step, lock in Hs. destruct (k_m s) eqn:Em; try discriminate; try (injection Hs as <-; k_proj; rewrite ?Em; auto; try apply Ho; fail); try (destruct (k_mtx s); try discriminate; injection Hs as <-; exact Ho).
    + injection Hs as <-. destruct (k_w s); k_proj; exact Ho.
    + injection Hs as <-. k_proj. destruct Ho as (-> & ->). reflexivity.
    + injection Hs as <-. k_proj. destruct Ho as (-> & ->). reflexivity.
    + destruct (k_reader s); injection Hs as <-; k_proj; exact Ho.
    + destruct (k_w s); try discriminate. injection Hs as <-. exact Ho.
  - unfold k_step in Hs. destruct (k_m s) eqn:Em, (k_w s); try discriminate; injection Hs as <-; k_proj; rewrite Em; exact Ho.
  - unfold k_step in Hs. destruct (k_m s) eqn:Em, (k_w s); try discriminate; injection Hs as <-; k_proj; rewrite Em; exact Ho.
  - unfold k_step in Hs. destruct (k_m s) eqn:Em; try discriminate; injection Hs as <-; k_proj. destruct c; [reflexivity|reflexivity|exact Ho].
  - unfold k_step in Hs. destruct (k_m s) eqn:Em; try discriminate; injection Hs as <-; k_proj; rewrite Em; exact Ho.
  - unfold k_step in Hs. destruct (k_m s) eqn:Em; try discriminate; injection Hs as <-; k_proj; rewrite Em; exact Ho.
  - unfold k_step in Hs. destruct (k_ready s); [destruct (k_m s); discriminate|]. destruct (k_m s) eqn:Em; try discriminate; injection Hs as <-; k_proj; exact Ho.
  - unfold k_step in Hs. destruct (k_m s) eqn:Em; try discriminate; injection Hs as <-; k_proj; rewrite Em; exact Ho.
Qed.
Lemma reach_on sgn m j l s : kb_reaches sgn m j l s -> on_ok l s.
Proof. intros H. apply (k_run_hist sgn on_ok (on_step sgn) l [] (kbd_init m j) s); [reflexivity|exact H]. Qed.

(** ** Nothing is left unread while input is active *)
Lemma main_done s s' : m_step s = Some s' -> (k_w s' = WDone -> k_w s = WDone) /\ (stopping (k_m s) = true -> stopping (k_m s') = true).
Proof.
  unfold m_step, lock. intros Hs. destruct (k_m s) eqn:Em; try discriminate; try (injection Hs as <-; k_proj; auto; fail); try (destruct (k_mtx s); try discriminate; injection Hs as <-; k_proj; auto; fail).
  - injection Hs as <-. destruct (k_w s) eqn:Ew; k_proj; rewrite ?Ew; split; congruence.
  - destruct (k_reader s); injection Hs as <-; k_proj; auto.
  - destruct (k_w s) eqn:Ew; try discriminate. injection Hs as <-. k_proj. auto.
Qed.
Lemma done_why sgn m j l s : kb_reaches sgn m j l s -> k_w s = WDone -> In WSignal l \/ stopping (k_m s) = true.
Proof.
  intros H. pose proof (reach_safe sgn m j l s H) as _.
  apply (k_run_hist sgn (fun l s => (k_w s = WDone -> In WSignal l \/ stopping (k_m s) = true) /\ pipe_ok s /\ mutex_ok s /\ sleep_ok s)) with (l1 := []) (l2 := l) (s := kbd_init m j); [| |exact H].
  - clear. intros l a s s' (Hd & Hp & Hm & Hz) Hs. pose proof (safe_step sgn a s s' Hm Hz Hp Hs) as (H1 & H2 & H3). split; [|auto]. pose proof (step_alive sgn a s s' Hs) as Hk. destruct Hp as (Hp & _). specialize (Hp Hk).
    assert (Hl : forall x : kact, In x l -> In x (l ++ [a])) by (intros x Hx; apply in_or_app; left; exact Hx).
    destruct a as [| | | |c|t| | |md].
    + apply step_worker, w_step_cases in Hs. destruct Hs as [p Hw Hmt ->|Hw He|Hw He|Hw|Hw Hst|Hw Hst Hq|f c s1 Hf Hg|k Hw]; try discriminate.
      * intros _. right. k_proj. congruence.
      * destruct (get_next sgn f c _ Hf) as (_ & Ha). intros E. k_proj. rewrite E in Ha. discriminate.
    + intros E. apply step_main, main_done in Hs as (Hs1 & Hs2). destruct (Hd (Hs1 E)) as [H|H]; [left; auto|right; exact (Hs2 H)].
    + unfold k_step in Hs. destruct (k_m s), (k_w s); try discriminate; injection Hs as <-; discriminate.
    + intros _. left. apply in_or_app. right. left. reflexivity.
    + unfold k_step in Hs. destruct (k_m s); try discriminate; injection Hs as <-. intros E. k_proj. destruct (Hd E) as [H|H]; [left; auto|discriminate H].
    + unfold k_step in Hs. destruct (k_m s) eqn:Em; try discriminate; injection Hs as <-; k_proj; rewrite Em; intros E; destruct (Hd E) as [H|H]; auto.
    + unfold k_step in Hs. destruct (k_m s) eqn:Em; try discriminate; injection Hs as <-; k_proj; rewrite Em; intros E; destruct (Hd E) as [H|H]; auto.
    + unfold k_step in Hs. destruct (k_ready s); [destruct (k_m s); discriminate|]. destruct (k_m s) eqn:Em; try discriminate; injection Hs as <-; k_proj; intros E; destruct (Hd E) as [H|H]; auto.
    + unfold k_step in Hs. destruct (k_m s) eqn:Em; try discriminate; injection Hs as <-; k_proj; rewrite Em; intros E; destruct (Hd E) as [H|H]; auto.
  - unfold mutex_ok, sleep_ok, pipe_ok. cbn. repeat split; discriminate.
Qed.
Lemma all_read sgn m j l s : kb_reaches sgn m j l s -> k_m s = MUser -> active_after true l = true -> ~ In WSignal l -> k_step sgn WGo s = None -> starved s.
Proof.
  intros H Hu Ha Hn Hq. pose proof (reach_safe sgn m j l s H) as (Hm & Hz & Hp). pose proof (reach_on sgn m j l s H) as Ho. pose proof (done_why sgn m j l s H) as Hd.
  unfold on_ok in Ho. rewrite Hu in *. rewrite Ha in Ho. unfold k_step in Hq. rewrite Hu in Hq. unfold mutex_ok in Hm. rewrite Hu in Hm. destruct Hp as (Hp & _). rewrite Hu in Hp. specialize (Hp ltac:(discriminate)). cbn [stopping] in *.
  unfold w_step, read_then, getchar, opt_map, lock in Hq. unfold starved.
  destruct (k_w s) eqn:Ew; cbn [wh mh] in Hm; try discriminate Hq.
  - destruct (k_mtx s) as [[]|]; [destruct Hm; discriminate|destruct Hm; discriminate|discriminate Hq].
  - rewrite Ho in Hq. discriminate.
  - unfold sleep_ok in Hz. rewrite Hu in Hz. specialize (Hz Ew Ho). discriminate.
  - destruct (k_mtx s) as [[]|]; [destruct Hm; discriminate|destruct Hm; discriminate|discriminate Hq].
  - rewrite Hp in Hq. destruct (k_ready s); [|discriminate]. destruct (k_eof s); [discriminate|auto].
  - destruct (k_ready s); [|discriminate]. destruct (k_eof s); [discriminate|auto].
  - destruct (k_ready s); [|discriminate]. destruct (k_eof s); [discriminate|auto].
  - destruct (k_ready s); [|discriminate]. destruct (k_eof s); [discriminate|auto].
  - destruct (k_ready s); [|discriminate]. destruct (k_eof s); [discriminate|auto].
  - destruct (Hd eq_refl) as [H1|H1]; [contradiction|discriminate].
Qed.

(** The keyboard thread stops by itself if nothing is typed. *)
Definition read_weight (p : wpc) : nat := match p with WNotify _ => 5 | WLock | WWoke => 4 | WCheck => 3 | WUnlock => 2 | WSelect => 1 | _ => 0 end.
Definition read_measure (s : kbd) : nat := 8 * length (k_ready s) + read_weight (k_w s).
Lemma read_decreases sgn s s' : k_eof s = false -> k_step sgn WGo s = Some s' -> k_eof s' = false /\ read_measure s' < read_measure s.
Proof.
  intros He Hs. apply step_worker, w_step_cases in Hs. unfold read_measure. destruct Hs as [p Hw Hmt ->|Hw Hen|Hw Hen|Hw|Hw Hst|Hw Hst Hq|f c s1 Hf Hg|k Hw]; try (rewrite Hw; k_proj; cbn [read_weight]; split; [exact He|lia]; fail).
  - k_proj. split; [exact He|]. destruct Hw as [Hw|Hw]; rewrite Hw; cbn [read_weight]; lia.
  - apply getchar_inv in Hg as (r & e & cs & -> & -> & [(Hr & ->)|(Hr & -> & Heof & -> & ->)]); [|congruence]. k_proj. split; [exact He|]. rewrite Hr. cbn [length].
    destruct (get_next sgn f c _ Hf) as (_ & Ha). destruct (f c); try discriminate Ha; cbn [read_weight]; lia.
Qed.
Lemma reads_bounded sgn n : forall s s', k_eof s = false -> k_run sgn (repeat WGo n) s = Some s' -> n <= read_measure s.
Proof.
  induction n as [|n IH]; intros s s' He H; [lia|]. cbn [repeat k_run] in H. destruct (k_step sgn WGo s) as [s1|] eqn:Hs; [|discriminate].
  destruct (read_decreases sgn s s1 He Hs) as (He1 & Hd). specialize (IH s1 s' He1 H). lia.
Qed.
(** But at the end of the input it reads zeros for ever. *)
Lemma zeros sgn n : forall s, k_w s = WSelect -> k_m s = MUser -> k_enabled s = true -> k_mtx s = None -> k_stop s = false -> k_ready s = [] -> k_eof s = true ->
  exists l s', k_run sgn l s = Some s' /\ k_keys s' = k_keys s ++ repeat (KAscii "000") n.
Proof.
  induction n as [|n IH]; intros [w m en mtx stp rd tty old ready eof rdn cons keys] H1 H2 H3 H4 H5 H6 H7; cbn [k_w k_m k_enabled k_mtx k_stop k_ready k_eof k_keys] in *; subst.
  - exists []. eexists. split; [reflexivity|]. cbn. rewrite app_nil_r. reflexivity.
  - destruct (IH (mkKbd WSelect MUser true None false rd tty old [] true (rdn ++ ["000"%char]) cons (keys ++ [KAscii "000"]))) as (l & s' & Hl & Hk); try reflexivity.
    exists (repeat WGo 6 ++ l), s'. rewrite k_run_app. split; [|rewrite Hk; cbn [k_keys repeat]; rewrite <- app_assoc; reflexivity].
    assert (Hg : get0 sgn "000" = WNotify (KAscii "000")) by (destruct sgn; reflexivity).
    cbn [repeat k_run k_step w_step k_m k_w k_stop k_ready k_eof to_w read_then getchar opt_map]. rewrite Hg. cbn. exact Hl.
Qed.

(** ** While input is not active *)
Definition bytes_due (s : kbd) : nat :=
  match k_w s with WUnlock | WSelect | WGet0 => 4 | WGet1 => 3 | WGet2 => 2 | WGet3 => 1 | _ => 0 end.
Definition keys_due (s : kbd) : nat :=
  match k_w s with WUnlock | WSelect | WGet0 | WGet1 | WGet2 | WGet3 | WNotify _ => 1 | _ => 0 end.
Definition quiet_main (p : mpc) : bool := match p with MAct0 | MAct1 | MAct2 | MAct3 => false | _ => true end.
Definition grew (s s' : kbd) : Prop := exists d ks,
  k_read s' = k_read s ++ d /\ length d + bytes_due s' <= bytes_due s /\ k_keys s' = k_keys s ++ ks /\ length ks + keys_due s' <= keys_due s.
Lemma grew_refl s s' : k_read s' = k_read s -> k_keys s' = k_keys s -> bytes_due s' <= bytes_due s -> keys_due s' <= keys_due s -> grew s s'.
Proof. intros H1 H2 H3 H4. exists [], []. rewrite !app_nil_r. auto. Qed.
Lemma grew_trans s1 s2 s3 : grew s1 s2 -> grew s2 s3 -> grew s1 s3.
Proof.
  intros (d1 & k1 & A1 & A2 & A3 & A4) (d2 & k2 & B1 & B2 & B3 & B4). exists (d1 ++ d2), (k1 ++ k2). rewrite B1, A1, B3, A3, !app_assoc, !app_length. repeat split; lia.
Qed.
Lemma off_step sgn a s s' : a <> MCall Activate -> k_enabled s = false -> quiet_main (k_m s) = true -> k_step sgn a s = Some s' ->
  k_enabled s' = false /\ quiet_main (k_m s') = true /\ grew s s'.
Proof.
  intros Ha He Hq Hs. destruct a as [| | | |c|t| | |md].
  - apply step_worker, w_step_cases in Hs. destruct Hs as [p Hw Hmt ->|Hw Hen|Hw Hen|Hw|Hw Hst|Hw Hst Hr|f c s1 Hf Hg|k Hw].
    + k_proj. split; [exact He|]. split; [exact Hq|]. apply grew_refl; try reflexivity; unfold bytes_due, keys_due; k_proj; lia.
    + congruence.
    + k_proj. split; [exact He|]. split; [exact Hq|]. apply grew_refl; try reflexivity; unfold bytes_due, keys_due; k_proj; lia.
    + k_proj. split; [exact He|]. split; [exact Hq|]. apply grew_refl; try reflexivity; unfold bytes_due, keys_due; k_proj; rewrite Hw; lia.
    + k_proj. split; [exact He|]. split; [exact Hq|]. apply grew_refl; try reflexivity; unfold bytes_due, keys_due; k_proj; lia.
    + k_proj. split; [exact He|]. split; [exact Hq|]. apply grew_refl; try reflexivity; unfold bytes_due, keys_due; k_proj; rewrite Hw; lia.
    + apply getchar_inv in Hg as (r & e & cs & -> & _). k_proj. split; [exact He|]. split; [exact Hq|]. exists [c], []. unfold bytes_due, keys_due. k_proj. rewrite app_nil_r. split; [reflexivity|].
      unfold get0, get1, get2, get3 in Hf. assert (Hx : 1 + match f c with WUnlock | WSelect | WGet0 => 4 | WGet1 => 3 | WGet2 => 2 | WGet3 => 1 | _ => 0 end <= match k_w s with WUnlock | WSelect | WGet0 => 4 | WGet1 => 3 | WGet2 => 2 | WGet3 => 1 | _ => 0 end).
      { destruct Hf as [H|[H|[H|H]]]; injection H as -> ->; unfold get0, get1, get2, get3; repeat match goal with |- context [if ?b then _ else _] => destruct b end; lia. }
      split; [cbn [length]; exact Hx|]. split; [reflexivity|]. cbn [length]. destruct Hf as [H|[H|[H|H]]]; injection H as -> ->; unfold get0, get1, get2, get3; repeat match goal with |- context [if ?b then _ else _] => destruct b end; lia.
    + k_proj. split; [exact He|]. split; [exact Hq|]. exists [], [k]. unfold bytes_due, keys_due. k_proj. rewrite Hw, app_nil_r. cbn. auto.
  - apply step_main in Hs. unfold m_step, lock in Hs. destruct (k_m s) eqn:Em; try discriminate; try (injection Hs as <-; k_proj; (split; [auto|]); (split; [reflexivity|]); apply grew_refl; try reflexivity; lia).
    + injection Hs as <-. destruct (k_w s) eqn:Ew; k_proj; (split; [auto|]); (split; [reflexivity|]); apply grew_refl; try reflexivity; unfold bytes_due, keys_due; k_proj; rewrite ?Ew; lia.
    + destruct (k_mtx s); try discriminate. injection Hs as <-. k_proj. (split; [auto|]); (split; [reflexivity|]); apply grew_refl; try reflexivity; unfold bytes_due, keys_due; k_proj; lia.
    + destruct (k_reader s); injection Hs as <-; k_proj; (split; [auto|]); (split; [reflexivity|]); apply grew_refl; try reflexivity; unfold bytes_due, keys_due; k_proj; lia.
    + destruct (k_w s) eqn:Ew; try discriminate. injection Hs as <-. k_proj; (split; [auto|]); (split; [reflexivity|]); apply grew_refl; try reflexivity; unfold bytes_due, keys_due; k_proj; rewrite ?Ew; lia.
  - unfold k_step in Hs. destruct (k_m s) eqn:Em, (k_w s) eqn:Ew; try discriminate; injection Hs as <-; k_proj; rewrite ?Em; (split; [exact He|]); (split; [exact Hq|]); apply grew_refl; try reflexivity; unfold bytes_due, keys_due; k_proj; rewrite ?Ew; lia.
  - unfold k_step in Hs. destruct (k_m s) eqn:Em, (k_w s) eqn:Ew; try discriminate; injection Hs as <-; k_proj; rewrite ?Em; (split; [exact He|]); (split; [exact Hq|]); apply grew_refl; try reflexivity; unfold bytes_due, keys_due; k_proj; rewrite ?Ew; lia.
  - unfold k_step in Hs. destruct (k_m s) eqn:Em; try discriminate; injection Hs as <-; k_proj. split; [exact He|]. destruct c; [congruence| |]; (split; [reflexivity|]); apply grew_refl; try reflexivity; unfold bytes_due, keys_due; k_proj; lia.
  - unfold k_step in Hs. destruct (k_m s) eqn:Em; try discriminate; injection Hs as <-; k_proj; rewrite ?Em; (split; [exact He|]); (split; [exact Hq|]); apply grew_refl; try reflexivity; unfold bytes_due, keys_due; k_proj; lia.
  - unfold k_step in Hs. destruct (k_m s) eqn:Em; try discriminate; injection Hs as <-; k_proj; rewrite ?Em; (split; [exact He|]); (split; [exact Hq|]); apply grew_refl; try reflexivity; unfold bytes_due, keys_due; k_proj; lia.
  - unfold k_step in Hs. destruct (k_ready s); [destruct (k_m s); discriminate|]. destruct (k_m s) eqn:Em; try discriminate; injection Hs as <-; k_proj; (split; [exact He|]); (split; [exact Hq|]); apply grew_refl; try reflexivity; unfold bytes_due, keys_due; k_proj; lia.
  - unfold k_step in Hs. destruct (k_m s) eqn:Em; try discriminate; injection Hs as <-; k_proj; rewrite ?Em; (split; [exact He|]); (split; [exact Hq|]); apply grew_refl; try reflexivity; unfold bytes_due, keys_due; k_proj; lia.
Qed.
Lemma off_run sgn l : forall s s', no_call Activate l -> k_enabled s = false -> quiet_main (k_m s) = true -> k_run sgn l s = Some s' -> grew s s' /\ k_enabled s' = false.
Proof.
  induction l as [|a l IH]; intros s s' Hn He Hq H; cbn [k_run] in H; [injection H as <-; split; [apply grew_refl; auto|exact He]|].
  destruct (k_step sgn a s) as [s1|] eqn:Hs; [|discriminate]. destruct (off_step sgn a s s1) as (H1 & H2 & H3); [intros ->; apply Hn; left; reflexivity|exact He|exact Hq|exact Hs|].
  destruct (IH s1 s') as (H4 & H5); [intros Hin; apply Hn; right; exact Hin|exact H1|exact H2|exact H|]. split; [exact (grew_trans _ _ _ H3 H4)|exact H5].
Qed.

(** ** Shutdown *)
Definition end_weight (p : wpc) : nat :=
  match p with WGet0 => 9 | WGet1 => 8 | WGet2 => 7 | WGet3 => 6 | WNotify _ => 5 | WLock | WWoke => 4 | WCheck => 3 | WUnlock => 2 | WSelect => 1 | _ => 0 end.
Definition ending (s : kbd) : Prop := (k_m s = MDt3 \/ (k_m s = MGone /\ k_w s = WDone)) /\ k_stop s = true /\ k_enabled s = true /\ mutex_ok s /\ k_w s <> WSleep.
Lemma end_step sgn a s s' : ending s -> k_step sgn a s = Some s' -> ending s' /\ end_weight (k_w s') + (if is_wgo a then 1 else 0) <= end_weight (k_w s).
Proof.
  intros (Hj & Hst & He & Hm & Hz) Hs. unfold ending. pose proof Hm as Hm0. unfold mutex_ok in Hm. destruct a as [| | | |c|t| | |md]; cbn [is_wgo].
  - apply step_worker, w_step_cases in Hs. destruct Hs as [p Hw Hmt ->|Hw Hen|Hw Hen|Hw|Hw Hs0|Hw Hs0 Hr|f c s1 Hf Hg|k Hw].
    + assert (Hn : mh (k_m s) = false) by (destruct Hj as [-> |(-> & _)]; reflexivity). unfold mutex_ok. k_proj. split; [|destruct Hw as [Hw|Hw]; rewrite Hw; cbn; lia].
      split; [destruct Hj as [Hj|(_ & Hj)]; [left; exact Hj|destruct Hw; congruence]|]. split; [exact Hst|]. split; [exact He|]. split; [split; [reflexivity|exact Hn]|discriminate].
    + unfold mutex_ok. k_proj. rewrite Hw in *. split; [|cbn; lia]. split; [destruct Hj as [Hj|(_ & Hj)]; [left; exact Hj|congruence]|]. split; [exact Hst|]. split; [exact He|]. split; [exact Hm|discriminate].
    + congruence.
    + unfold mutex_ok. k_proj. rewrite Hw in *. assert (Hn : mh (k_m s) = false) by (destruct Hj as [-> |(-> & _)]; reflexivity). split; [|cbn; lia]. split; [destruct Hj as [Hj|(_ & Hj)]; [left; exact Hj|congruence]|]. split; [exact Hst|]. split; [exact He|]. split; [split; [reflexivity|exact Hn]|discriminate].
    + unfold mutex_ok. k_proj. rewrite Hw in *. split; [|cbn; lia]. split; [destruct Hj as [Hj|(Hj & _)]; [left; exact Hj|right; split; [exact Hj|reflexivity]]|]. split; [reflexivity|]. split; [exact He|]. split; [exact Hm|discriminate].
    + congruence.
    + destruct (get_next sgn f c _ Hf) as (H1 & H2). apply getchar_inv in Hg as (r & e & cs & -> & _). unfold mutex_ok. k_proj. assert (Hx : 1 + end_weight (f c) <= end_weight (k_w s)).
      { destruct Hf as [H|[H|[H|H]]]; injection H as -> ->; unfold get0, get1, get2, get3; repeat match goal with |- context [if ?b then _ else _] => destruct b end; cbn; lia. }
      split; [|lia]. split; [destruct Hj as [Hj|(_ & Hj)]; [left; exact Hj|rewrite Hj in H1; discriminate]|]. split; [exact Hst|]. split; [exact He|]. split; [|intros E; rewrite E in H2; discriminate].
      destruct (k_w s); try discriminate H1; destruct (f c); try discriminate H2; exact Hm.
    + unfold mutex_ok. k_proj. rewrite Hw in *. split; [|cbn; lia]. split; [destruct Hj as [Hj|(_ & Hj)]; [left; exact Hj|congruence]|]. split; [exact Hst|]. split; [exact He|]. split; [exact Hm|discriminate].
  - apply step_main in Hs. unfold m_step in Hs. destruct Hj as [Hj|(Hj & _)]; rewrite Hj in Hs; [|discriminate]. destruct (k_w s) eqn:Ew; try discriminate. injection Hs as <-. unfold mutex_ok. k_proj. rewrite Ew, Hj in *. split; [|cbn; lia]. split; [right; auto|]. auto.
  - exfalso. unfold k_step in Hs. destruct (k_m s), (k_w s); congruence.
  - unfold k_step in Hs. destruct (k_w s) eqn:Ew; try (destruct (k_m s); discriminate). assert (E : s' = to_w WDone (with_pipe (k_stop s) false s)) by (destruct (k_m s); congruence). subst s'. unfold mutex_ok. k_proj. split; [|cbn [end_weight]; lia].
    split; [destruct Hj as [Hj|(_ & Hj)]; [left; exact Hj|discriminate]|]. split; [exact Hst|]. split; [exact He|]. split; [exact Hm|discriminate].
  - exfalso. unfold k_step in Hs. destruct Hj as [Hj|(Hj & _)]; rewrite Hj in Hs; discriminate.
  - assert (E : s' = with_input (k_ready s ++ t) (k_eof s) s) by (unfold k_step in Hs; destruct (k_m s); congruence). subst s'. k_proj. split; [auto|lia].
  - assert (E : s' = with_input (k_ready s) true s) by (unfold k_step in Hs; destruct (k_m s); congruence). subst s'. k_proj. split; [auto|lia].
  - unfold k_step in Hs. destruct (k_ready s); [destruct (k_m s); discriminate|]. unfold mutex_ok. destruct (k_m s) eqn:Em; try discriminate; injection Hs as <-; k_proj; (split; [auto|lia]).
  - unfold k_step in Hs. unfold mutex_ok. destruct (k_m s) eqn:Em; try discriminate; injection Hs as <-; k_proj; rewrite Em; (split; [auto|lia]).
Qed.
Lemma end_run sgn l : forall s s', ending s -> k_run sgn l s = Some s' -> ending s' /\ count is_wgo l + end_weight (k_w s') <= end_weight (k_w s).
Proof.
  induction l as [|a l IH]; intros s s' Hj H; cbn [k_run] in H; [injection H as <-; split; [exact Hj|cbn; lia]|].
  destruct (k_step sgn a s) as [s1|] eqn:Hs; [|discriminate]. destruct (end_step sgn a s s1 Hj Hs) as (H1 & H2). destruct (IH s1 s' H1 H) as (H3 & H4). split; [exact H3|]. unfold count in *. cbn [filter]. destruct (is_wgo a); cbn [length]; lia.
Qed.
Lemma end_moves sgn s : ending s ->
  k_m s = MGone \/ (exists s', k_step sgn WGo s = Some s') \/ (exists s', k_step sgn MGo s = Some s' /\ k_m s' = MGone) \/ (in_get (k_w s) /\ starved s).
Proof.
  intros (Hj & Hst & He & Hm & Hz). destruct Hj as [Hj|(Hj & _)]; [right|left; exact Hj]. unfold mutex_ok in Hm. rewrite Hj in Hm. unfold k_step. rewrite Hj. unfold m_step, w_step, read_then, getchar, opt_map, lock, starved. rewrite Hj, Hst, He.
  destruct (k_w s) eqn:Ew; cbn [wh mh in_get] in *; try congruence; try (left; eexists; reflexivity); try (destruct (k_ready s); [destruct (k_eof s); [left; eexists; reflexivity|right; right; auto]|left; eexists; reflexivity]).
  - destruct (k_mtx s) as [[]|]; [destruct Hm; discriminate|destruct Hm; discriminate|left; eexists; reflexivity].
  - destruct (k_mtx s) as [[]|]; [destruct Hm; discriminate|destruct Hm; discriminate|left; eexists; reflexivity].
  - right. left. eexists. split; reflexivity.
Qed.
Lemma reach_ending sgn m j l s : kb_reaches sgn m j l s -> k_m s = MDt3 -> active_after true l = true -> ending s.
Proof.
  intros H Hj Ha. pose proof (reach_safe sgn m j l s H) as (Hm & Hz & Hp). pose proof (reach_on sgn m j l s H) as Ho. unfold on_ok in Ho. rewrite Hj, Ha in Ho. destruct Hp as (Hp & _). rewrite Hj in Hp. specialize (Hp ltac:(discriminate)).
  split; [left; exact Hj|]. split; [exact Hp|]. split; [exact Ho|]. split; [exact Hm|]. intros E. specialize (Hz E Ho). congruence.
Qed.
(** If input is not active and the keyboard thread waits for that, it waits for ever. *)
Definition deaf (s : kbd) : Prop := k_m s = MDt3 /\ k_enabled s = false /\ match k_w s with WLock | WCheck | WSleep | WWoke => True | _ => False end.
Lemma deaf_step sgn a s s' : deaf s -> k_step sgn a s = Some s' -> deaf s'.
Proof.
  intros (Hj & He & Hw) Hs. unfold deaf. unfold k_step in Hs. rewrite Hj in Hs. destruct a as [| | | |c|t| | |md]; try discriminate.
  - unfold w_step, lock in Hs. destruct (k_w s); try (destruct Hw; fail); try discriminate.
    + destruct (k_mtx s); [discriminate|]. injection Hs as <-. k_proj. auto.
    + rewrite He in Hs. injection Hs as <-. k_proj. auto.
    + destruct (k_mtx s); [discriminate|]. injection Hs as <-. k_proj. auto.
  - unfold m_step in Hs. rewrite Hj in Hs. destruct (k_w s); try (destruct Hw; fail); discriminate.
  - destruct (k_w s); try discriminate. injection Hs as <-. k_proj. auto.
  - destruct (k_w s); try (destruct Hw; fail); discriminate.
  - injection Hs as <-. k_proj. auto.
  - injection Hs as <-. k_proj. auto.
  - destruct (k_ready s); [discriminate|]. injection Hs as <-. k_proj. auto.
Qed.
Lemma deaf_forever sgn l s s' : deaf s -> k_run sgn l s = Some s' -> k_m s' <> MGone.
Proof. intros Hd H. apply (k_run_inv sgn deaf (deaf_step sgn)) in H as (E & _); [|exact Hd]. rewrite E. discriminate. Qed.
(** So does it in the middle of a key, if nothing more is typed. *)
Definition stuck (s : kbd) : Prop := k_m s = MDt3 /\ starved s /\ in_get (k_w s).
Lemma stuck_step sgn a s s' : stuck s -> match a with Type_ _ | Hangup => False | _ => True end -> k_step sgn a s = Some s' -> stuck s'.
Proof.
  intros (Hj & (Hr & He) & Hw) Ha Hs. unfold k_step in Hs. rewrite Hj in Hs. destruct a as [| | | |c|t| | |md]; try discriminate; try (destruct Ha; fail).
  - unfold w_step, read_then, getchar, opt_map in Hs. rewrite Hr, He in Hs. destruct (k_w s); try (destruct Hw; fail); discriminate.
  - unfold m_step in Hs. rewrite Hj in Hs. destruct (k_w s); try (destruct Hw; fail); discriminate.
  - destruct (k_w s); try (destruct Hw; fail); discriminate.
  - destruct (k_w s); try (destruct Hw; fail); discriminate.
  - rewrite Hr in Hs. discriminate.
Qed.
Lemma stuck_forever sgn l : forall s s', stuck s -> (forall a, In a l -> match a with Type_ _ | Hangup => False | _ => True end) -> k_run sgn l s = Some s' -> k_m s' <> MGone.
Proof.
  induction l as [|a l IH]; intros s s' Hk Ha H; cbn [k_run] in H; [injection H as <-; destruct Hk as (-> & _); discriminate|].
  destruct (k_step sgn a s) as [s1|] eqn:Hs; [|discriminate]. apply (IH s1); [exact (stuck_step sgn a s s1 Hk (Ha a (or_introl eq_refl)) Hs)|intros b Hb; apply Ha; right; exact Hb|exact H].
Qed.

(** ** Terminal modes *)
Definition mode_ok (on : bool) (want saved : tmode) (s : kbd) : Prop :=
  match k_m s with
  | MUser => if on then k_tty s = manual want /\ k_old s = want /\ saved = want else k_tty s = want /\ k_old s = saved
  | MAct0 => on = true /\ k_tty s = want /\ saved = want
  | MAct1 => on = true /\ k_old s = want /\ saved = want
  | MAct2 | MAct3 | MAct4 | MAct5 => on = true /\ k_tty s = manual want /\ k_old s = want /\ saved = want
  | MDe0 | MDt0 => on = false /\ want = saved /\ k_old s = saved
  | MDe1 | MDe2 | MDe3 => on = false /\ k_tty s = want /\ k_old s = saved
  | MDt1 | MDt2 | MDt3 | MGone => on = false /\ k_tty s = want
  | MKilled => True
  end.
Fixpoint on_after (on : bool) (l : list kact) : bool :=
  match l with
  | [] => on
  | MCall Activate :: l' => on_after true l'
  | MCall _ :: l' => on_after false l'
  | _ :: l' => on_after on l'
  end.
Lemma mode_same on want saved s s' : k_m s' = k_m s -> k_tty s' = k_tty s -> k_old s' = k_old s -> mode_ok on want saved s -> mode_ok on want saved s'.
Proof. unfold mode_ok. intros -> -> ->. exact (fun H => H). Qed.
Lemma mode_run sgn l : forall on want saved s s' want', mode_ok on want saved s -> mode_after on want saved l = Some want' -> k_run sgn l s = Some s' ->
  exists saved', mode_ok (on_after on l) want' saved' s'.
Proof.
  induction l as [|a l IH]; intros on want saved s s' want' Hm Hw H; cbn [k_run] in H; [injection H as <-; injection Hw as <-; exists saved; exact Hm|].
  destruct (k_step sgn a s) as [s1|] eqn:Hs; [|discriminate].
  destruct a as [| | | |c|t| | |md]; cbn [mode_after on_after] in *.
  - apply (IH on want saved s1 s' want'); [|exact Hw|exact H]. apply step_worker, w_step_cases in Hs. destruct Hs as [p Hp Hmt ->|Hp He|Hp He|Hp|Hp Hst|Hp Hst Hq|f c s2 Hf Hg|k Hp]; try exact Hm. apply getchar_inv in Hg as (r & e & cs & -> & _). exact Hm.
  - apply (IH on want saved s1 s' want'); [|exact Hw|exact H]. apply step_main in Hs. unfold m_step, lock in Hs. unfold mode_ok in *. destruct (k_m s) eqn:Em; try discriminate; try (destruct (k_mtx s); [discriminate|]; injection Hs as <-; exact Hm); try (injection Hs as <-; k_proj; rewrite ?Em; try exact Hm; intuition congruence).
    + injection Hs as <-. destruct (k_w s); k_proj; exact Hm.
    + injection Hs as <-. k_proj. destruct Hm as (-> & Hm). exact Hm.
    + injection Hs as <-. k_proj. destruct Hm as (-> & Hm). exact Hm.
    + destruct (k_reader s); injection Hs as <-; k_proj; [exact Hm|exact Logic.I].
    + destruct (k_w s); try discriminate. injection Hs as <-. exact Hm.
  - apply (IH on want saved s1 s' want'); [|exact Hw|exact H]. unfold k_step in Hs. destruct (k_m s) eqn:Em, (k_w s); try discriminate; injection Hs as <-; exact Hm.
  - apply (IH on want saved s1 s' want'); [|exact Hw|exact H]. unfold k_step in Hs. destruct (k_m s) eqn:Em, (k_w s); try discriminate; injection Hs as <-; exact Hm.
  - unfold k_step in Hs. unfold mode_ok in Hm. destruct (k_m s) eqn:Em; try discriminate. injection Hs as <-. destruct c.
    + destruct on; [discriminate|]. refine (IH true want want _ s' want' _ Hw H). unfold mode_ok. k_proj. intuition.
    + refine (IH false saved saved _ s' want' _ Hw H). unfold mode_ok. k_proj. destruct on; intuition congruence.
    + refine (IH false saved saved _ s' want' _ Hw H). unfold mode_ok. k_proj. destruct on; intuition congruence.
  - apply (IH on want saved s1 s' want'); [|exact Hw|exact H]. unfold k_step in Hs. destruct (k_m s) eqn:Em; try discriminate; injection Hs as <-; exact Hm.
  - apply (IH on want saved s1 s' want'); [|exact Hw|exact H]. unfold k_step in Hs. destruct (k_m s) eqn:Em; try discriminate; injection Hs as <-; exact Hm.
  - apply (IH on want saved s1 s' want'); [|exact Hw|exact H]. unfold k_step in Hs. destruct (k_ready s); [destruct (k_m s); discriminate|]. destruct (k_m s) eqn:Em; try discriminate; injection Hs as <-; unfold mode_ok in *; k_proj; rewrite Em in Hm; exact Hm.
  - destruct on; [discriminate|]. apply (IH false md saved s1 s' want'); [|exact Hw|exact H]. unfold k_step in Hs. unfold mode_ok in *. destruct (k_m s) eqn:Em; try discriminate; injection Hs as <-; k_proj; rewrite Em; intuition.
Qed.
Lemma on_active l : forall b, no_call Destroy l -> on_after b l = active_after b l.
Proof.
  induction l as [|a l IH]; intros b H; [reflexivity|]. assert (H' : no_call Destroy l) by (intros Hin; apply H; right; exact Hin).
  cbn [on_after active_after]. destruct a as [| | | |[]| | | |]; try apply IH; try exact H'. exfalso. apply H. left. reflexivity.
Qed.

(** A keyboard thread that has ended reads nothing. *)
Lemma done_forever sgn l s s' : k_w s = WDone -> k_run sgn l s = Some s' -> k_w s' = WDone /\ k_keys s' = k_keys s.
Proof.
  intros Hw H. apply (k_run_inv sgn (fun x => k_w x = WDone /\ k_keys x = k_keys s)) in H; [exact H| |auto]. clear. intros a s0 s1 (Hw & Hk) Hs. rewrite <- Hk. unfold k_step in Hs.
  destruct a as [| | | |c|t| | |md].
  - unfold w_step in Hs. rewrite Hw in Hs. destruct (k_m s0); discriminate.
  - assert (H : m_step s0 = Some s1) by (destruct (k_m s0); congruence). clear Hs. unfold m_step, lock in H. rewrite Hw in H. destruct (k_m s0); try discriminate; try (injection H as <-; k_proj; auto; fail); try (destruct (k_mtx s0); try discriminate; injection H as <-; k_proj; auto; fail). destruct (k_reader s0); injection H as <-; k_proj; auto.
  - rewrite Hw in Hs. destruct (k_m s0); discriminate.
  - rewrite Hw in Hs. destruct (k_m s0); discriminate.
  - destruct (k_m s0); try discriminate; injection Hs as <-; k_proj; auto.
  - destruct (k_m s0); try discriminate; injection Hs as <-; k_proj; auto.
  - destruct (k_m s0); try discriminate; injection Hs as <-; k_proj; auto.
  - destruct (k_ready s0); destruct (k_m s0); try discriminate; injection Hs as <-; k_proj; auto.
  - destruct (k_m s0); try discriminate; injection Hs as <-; k_proj; auto.
Qed.
Lemma not_taken sgn m j l s : kb_reaches sgn m j l s -> ~ In Take l -> bytes_by true s = map snd (k_cons s).
Proof.
  intros H. apply (k_run_hist sgn (fun l s => ~ In Take l -> bytes_by true s = map snd (k_cons s))) with (l1 := []) (l2 := l) (s := kbd_init m j); [|reflexivity|exact H]. clear.
  intros l a s s' Hi Hs Hn. assert (Hn1 : ~ In Take l) by (intros Hin; apply Hn, in_or_app; left; exact Hin). specialize (Hi Hn1).
  assert (Ha : a <> Take) by (intros ->; apply Hn, in_or_app; right; left; reflexivity).
  assert (E : k_cons s' = k_cons s \/ exists c, k_cons s' = k_cons s ++ [(true, c)]).
  { destruct a as [| | | |c|t| | |md]; try congruence.
    - apply step_worker, w_step_cases in Hs. destruct Hs as [p Hw Hmt ->|Hw He|Hw He|Hw|Hw Hst|Hw Hst Hq|f c s1 Hf Hg|k Hw]; try (left; reflexivity). apply getchar_inv in Hg as (r & e & cs & -> & _ & [(_ & ->)|(_ & _ & _ & -> & _)]); k_proj; eauto.
    - left. apply step_main in Hs. unfold m_step, lock in Hs. destruct (k_m s); try discriminate; try (injection Hs as <-; reflexivity); try (destruct (k_mtx s); try discriminate; injection Hs as <-; reflexivity); try (destruct (k_w s); try discriminate; injection Hs as <-; reflexivity). destruct (k_reader s); injection Hs as <-; reflexivity.
    - left. unfold k_step in Hs. destruct (k_m s), (k_w s); try discriminate; injection Hs as <-; reflexivity.
    - left. unfold k_step in Hs. destruct (k_m s), (k_w s); try discriminate; injection Hs as <-; reflexivity.
    - left. unfold k_step in Hs. destruct (k_m s); try discriminate; injection Hs as <-; reflexivity.
    - left. unfold k_step in Hs. destruct (k_m s); try discriminate; injection Hs as <-; reflexivity.
    - left. unfold k_step in Hs. destruct (k_m s); try discriminate; injection Hs as <-; reflexivity.
    - left. unfold k_step in Hs. destruct (k_m s); try discriminate; injection Hs as <-; reflexivity. }
  unfold bytes_by in *. destruct E as [-> |(c & ->)]; [exact Hi|]. rewrite filter_app, !map_app, Hi. reflexivity.
Qed.
Lemma quiet_not_notify sgn s k : k_m s <> MKilled -> k_step sgn WGo s = None -> k_w s <> WNotify k.
Proof. intros Hk H E. unfold k_step, w_step in H. rewrite E in H. destruct (k_m s); try discriminate. congruence. Qed.
(** As long as the main thread is in other code, it has not destroyed the keyboard. *)
Definition before_end (p : mpc) : bool := match p with MDt0 | MDt1 | MDt2 | MDt3 | MGone | MKilled => false | _ => true end.
Lemma on_user sgn m j l s : kb_reaches sgn m j l s -> k_m s = MUser -> no_call Destroy l.
Proof.
  intros H Hu. enough (Hq : before_end (k_m s) = true -> no_call Destroy l) by (apply Hq; rewrite Hu; reflexivity). clear Hu.
  apply (k_run_hist sgn (fun l s => before_end (k_m s) = true -> no_call Destroy l)) with (l1 := []) (l2 := l) (s := kbd_init m j); [|intros _ []|exact H]. clear.
  intros l a s s' Hi Hs Hb.
  assert (E : a <> MCall Destroy /\ before_end (k_m s) = true).
  { destruct a as [| | | |c|t| | |md].
    - apply step_worker, w_step_cases in Hs. destruct Hs as [p Hw Hmt ->|Hw He|Hw He|Hw|Hw Hst|Hw Hst Hq|f c s1 Hf Hg|k Hw]; try (split; [discriminate|exact Hb]). apply getchar_inv in Hg as (r & e & cs & -> & _). split; [discriminate|exact Hb].
    - split; [discriminate|]. apply step_main in Hs. unfold m_step, lock in Hs. destruct (k_m s); try discriminate; try reflexivity; try (injection Hs as <-; discriminate Hb); [destruct (k_reader s); injection Hs as <-; discriminate Hb|destruct (k_w s); try discriminate; injection Hs as <-; discriminate Hb].
    - split; [discriminate|]. unfold k_step in Hs. destruct (k_m s) eqn:Em, (k_w s); try discriminate; injection Hs as <-; k_proj; rewrite Em in Hb; exact Hb.
    - split; [discriminate|]. unfold k_step in Hs. destruct (k_m s) eqn:Em, (k_w s); try discriminate; injection Hs as <-; k_proj; rewrite Em in Hb; exact Hb.
    - unfold k_step in Hs. destruct (k_m s); try discriminate. injection Hs as <-. destruct c; [split; [discriminate|reflexivity]|split; [discriminate|reflexivity]|discriminate Hb].
    - split; [discriminate|]. unfold k_step in Hs. destruct (k_m s) eqn:Em; try discriminate; injection Hs as <-; k_proj; rewrite Em in Hb; exact Hb.
    - split; [discriminate|]. unfold k_step in Hs. destruct (k_m s) eqn:Em; try discriminate; injection Hs as <-; k_proj; rewrite Em in Hb; exact Hb.
    - split; [discriminate|]. unfold k_step in Hs. destruct (k_ready s); destruct (k_m s) eqn:Em; try discriminate; injection Hs as <-; k_proj; exact Hb.
    - split; [discriminate|]. unfold k_step in Hs. destruct (k_m s) eqn:Em; try discriminate; injection Hs as <-; k_proj; rewrite Em in Hb; exact Hb. }
  destruct E as (Ha & Hb1). unfold no_call. intros Hin. apply in_app_or in Hin as [Hin|[Hin|[]]]; [exact (Hi Hb1 Hin)|exact (Ha Hin)].
Qed.
Lemma mode_unset l : forall on m want, (forall x, ~ In (SetMode x) l) -> mode_after on m m l = Some want -> want = m.
Proof.
  induction l as [|a l IH]; intros on m want Hn H; cbn [mode_after] in H; [congruence|]. assert (Hn' : forall x, ~ In (SetMode x) l) by (intros x Hin; apply (Hn x); right; exact Hin).
  destruct a as [| | | |[]| | | |md]; try (exact (IH _ _ _ Hn' H)); [destruct on; [discriminate|exact (IH _ _ _ Hn' H)]|]. exfalso. apply (Hn md). left. reflexivity.
Qed.

(** ** All byte sequences *)
Definition lpart (p : wpc) (r : str) : Prop :=
  match p with WGet1 => r = ["027"%char] | WGet2 => r = esc [] | WGet3 => r = esc ["3"%char] | WGet0 => r = [] | _ => False end.
Lemma byte_is n c d : byte_of d = n -> is_byte n c = Ascii.eqb c d.
Proof.
  intros <-. unfold is_byte. destruct (Ascii.eqb_spec c d) as [->|H]; [apply N.eqb_refl|]. apply N.eqb_neq. intros E. apply H. unfold byte_of in E. rewrite <- (ascii_N_embedding c), <- (ascii_N_embedding d), E. reflexivity.
Qed.
Lemma dstep_seq sgn c p r ks : lpart p r ->
  (exists k, dstep sgn (p, ks) c = (WGet0, ks ++ [k]) /\ linux_seq sgn (r ++ [c]) k) \/ (exists p', dstep sgn (p, ks) c = (p', ks) /\ lpart p' (r ++ [c])).
Proof.
  intros Hp. unfold dstep. cbn [fst snd]. destruct p; try (destruct Hp; fail); cbn [lpart] in Hp; subst r.
  - unfold get0. rewrite (byte_is 255 c "255" eq_refl), (byte_is 4 c "004" eq_refl), (byte_is 127 c "127" eq_refl), (byte_is 8 c "008" eq_refl), (byte_is 10 c "010" eq_refl), (byte_is 12 c "012" eq_refl), (byte_is 27 c "027" eq_refl).
    destruct (Ascii.eqb_spec c "004") as [->|H4]; [left; exists KEof; rewrite orb_true_r; split; [reflexivity|constructor]|].
    destruct (sgn && Ascii.eqb c "255") eqn:Hff; [left; exists KEof; split; [reflexivity|]; apply andb_true_iff in Hff as (Hs & Hc); apply Ascii.eqb_eq in Hc; subst c; constructor; exact Hs|]. cbn [orb].
    destruct (Ascii.eqb_spec c "127") as [->|H127]; [left; exists KBackspace; split; [reflexivity|]; constructor; cbn; tauto|].
    destruct (Ascii.eqb_spec c "008") as [->|H8]; [left; exists KBackspace; split; [reflexivity|]; constructor; cbn; tauto|]. cbn [orb].
    destruct (Ascii.eqb_spec c "010") as [->|H10]; [left; exists KRet; split; [reflexivity|constructor]|].
    destruct (Ascii.eqb_spec c "012") as [->|H12]; [left; exists KClear; split; [reflexivity|constructor]|].
    destruct (Ascii.eqb_spec c "027") as [->|H27]; [right; exists WGet1; split; [reflexivity|reflexivity]|].
    left. exists (KAscii c). split; [reflexivity|]. constructor; [cbn; intuition congruence|]. intros (-> & ->). discriminate Hff.
  - unfold get1. rewrite (byte_is 91 c "[" eq_refl). destruct (Ascii.eqb_spec c "[") as [->|H]; [right; exists WGet2; split; reflexivity|]. left. exists KIgnored. split; [reflexivity|]. apply ls_esc, H.
  - unfold get2. rewrite (byte_is 51 c "3" eq_refl), (byte_is 65 c "A" eq_refl), (byte_is 66 c "B" eq_refl), (byte_is 68 c "D" eq_refl), (byte_is 67 c "C" eq_refl), (byte_is 70 c "F" eq_refl), (byte_is 72 c "H" eq_refl).
    destruct (Ascii.eqb_spec c "3") as [->|H3]; [right; exists WGet3; split; reflexivity|]. left.
    destruct (Ascii.eqb_spec c "A") as [->|HA]; [exists KUp; split; [reflexivity|apply ls_up]|]. destruct (Ascii.eqb_spec c "B") as [->|HB]; [exists KDown; split; [reflexivity|apply ls_down]|].
    destruct (Ascii.eqb_spec c "D") as [->|HD]; [exists KLeft; split; [reflexivity|apply ls_left]|]. destruct (Ascii.eqb_spec c "C") as [->|HC]; [exists KRight; split; [reflexivity|apply ls_right]|].
    destruct (Ascii.eqb_spec c "F") as [->|HF]; [exists KEnd; split; [reflexivity|apply ls_end]|]. destruct (Ascii.eqb_spec c "H") as [->|HH]; [exists KHome; split; [reflexivity|apply ls_home]|].
    exists KIgnored. split; [reflexivity|]. apply ls_other. cbn. intuition congruence.
  - unfold get3. rewrite (byte_is 126 c "~" eq_refl). left. destruct (Ascii.eqb_spec c "~") as [->|H]; eexists; (split; [reflexivity|]); [apply ls_delete|apply ls_three, H].
Qed.
Lemma lpart_part p r : lpart p r -> linux_part r.
Proof. unfold linux_part. destruct p; cbn [lpart]; try tauto; intros ->; cbn; tauto. Qed.
Lemma decoded_seq sgn bytes : forall p r ks, lpart p r -> exists qs r', r ++ bytes = flat_map fst qs ++ r' /\ Forall (fun q => linux_seq sgn (fst q) (snd q)) qs /\ linux_part r' /\
  snd (decoded sgn bytes (p, ks)) = ks ++ map snd qs.
Proof.
  induction bytes as [|c bytes IH]; intros p r ks Hp; unfold decoded in *; cbn [fold_left].
  - exists [], r. cbn. rewrite !app_nil_r. split; [reflexivity|]. split; [constructor|]. split; [exact (lpart_part p r Hp)|reflexivity].
  - destruct (dstep_seq sgn c p r ks Hp) as [(k & E & Hq)|(p' & E & Hp')]; rewrite E.
    + destruct (IH WGet0 [] (ks ++ [k]) eq_refl) as (qs & r' & H1 & H2 & H3 & H4). exists ((r ++ [c], k) :: qs), r'. cbn [flat_map fst map snd app] in *.
      split; [rewrite <- !app_assoc, <- H1; reflexivity|]. split; [constructor; [exact Hq|exact H2]|]. split; [exact H3|]. rewrite H4, <- app_assoc. reflexivity.
    + destruct (IH p' (r ++ [c]) ks Hp') as (qs & r' & H1 & H2 & H3 & H4). exists qs, r'. split; [rewrite <- H1, <- app_assoc; reflexivity|]. split; [exact H2|]. split; [exact H3|exact H4].
Qed.
Lemma lseq_run sgn a k ks : linux_seq sgn a k -> decoded sgn a (WGet0, ks) = (WGet0, ks ++ [k]).
Proof.
  intros H. destruct H as [c H Hf| |Hs|c H| | |c H| | | | | | |c H| |c H]; try (destruct sgn; reflexivity).
  - cbn [In] in H. cbn [decoded fold_left]. unfold dstep. cbn [fst snd]. unfold get0. rewrite (byte_is 255 c "255" eq_refl), (byte_is 4 c "004" eq_refl), (byte_is 127 c "127" eq_refl), (byte_is 8 c "008" eq_refl), (byte_is 10 c "010" eq_refl), (byte_is 12 c "012" eq_refl), (byte_is 27 c "027" eq_refl).
    replace (sgn && Ascii.eqb c "255") with false by (symmetry; apply not_true_is_false; intros Hx; apply andb_true_iff in Hx as (Hx & Hy); apply Ascii.eqb_eq in Hy; exact (Hf (conj Hx Hy))).
    rewrite !(proj2 (Ascii.eqb_neq c _)) by (intros ->; tauto). reflexivity.
  - subst sgn. reflexivity.
  - destruct H as [<-|[<-|[]]]; destruct sgn; reflexivity.
  - cbn [decoded fold_left]. unfold dstep at 2. cbn [fst snd]. replace (get0 sgn "027") with WGet1 by (destruct sgn; reflexivity). unfold dstep. cbn [fst snd]. unfold get1. rewrite (byte_is 91 c "[" eq_refl), (proj2 (Ascii.eqb_neq c _) H). reflexivity.
  - cbn [In cursor_letters lit list_ascii_of_string] in H. change (decoded sgn (esc [c]) (WGet0, ks)) with (decoded sgn [c] (decoded sgn (esc []) (WGet0, ks))). replace (decoded sgn (esc []) (WGet0, ks)) with (WGet2, ks) by (destruct sgn; reflexivity).
    cbn [decoded fold_left]. unfold dstep. cbn [fst snd]. unfold get2. rewrite (byte_is 51 c "3" eq_refl), (byte_is 65 c "A" eq_refl), (byte_is 66 c "B" eq_refl), (byte_is 68 c "D" eq_refl), (byte_is 67 c "C" eq_refl), (byte_is 70 c "F" eq_refl), (byte_is 72 c "H" eq_refl).
    unfold cursor_letters in H. cbn in H. rewrite !(proj2 (Ascii.eqb_neq c _)) by (intros ->; tauto). reflexivity.
  - change (decoded sgn (esc ["3"%char; c]) (WGet0, ks)) with (decoded sgn [c] (decoded sgn (esc ["3"%char]) (WGet0, ks))). replace (decoded sgn (esc ["3"%char]) (WGet0, ks)) with (WGet3, ks) by (destruct sgn; reflexivity).
    cbn [decoded fold_left]. unfold dstep. cbn [fst snd]. unfold get3. rewrite (byte_is 126 c "~" eq_refl), (proj2 (Ascii.eqb_neq c _) H). reflexivity.
Qed.
Lemma lseqs_run sgn qs r : Forall (fun q => linux_seq sgn (fst q) (snd q)) qs -> linux_part r -> forall ks, snd (decoded sgn (flat_map fst qs ++ r) (WGet0, ks)) = ks ++ map snd qs.
Proof.
  intros H Hr. induction H as [|[a k] qs Hq _ IH]; intros ks.
  - cbn [flat_map app map]. rewrite app_nil_r. destruct Hr as [<-|[<-|[<-|[<-|[]]]]]; destruct sgn; reflexivity.
  - cbn [flat_map fst map snd] in *. rewrite <- app_assoc. unfold decoded in *. rewrite fold_left_app. pose proof (lseq_run sgn a k ks Hq) as Hk. unfold decoded in Hk. rewrite Hk, IH, <- app_assoc. reflexivity.
Qed.
Lemma seqs_found sgn m j l s qs r : kb_reaches sgn m j l s -> Forall (fun q => linux_seq sgn (fst q) (snd q)) qs -> linux_part r -> k_read s = flat_map fst qs ++ r -> found s = map snd qs.
Proof. intros Hr Hq Hp He. pose proof (reach_dec sgn m j l s Hr) as Hd. unfold dec_ok in Hd. pose proof (lseqs_run sgn qs r Hq Hp []) as Hx. rewrite <- He, Hd in Hx. exact Hx. Qed.

(** ** Before the first activation *)
Definition early (s : kbd) : Prop :=
  match k_m s with MAct0 | MAct1 | MAct2 | MAct3 => True | _ => False end.
Definition early_ok (s : kbd) : Prop :=
  early s /\ k_enabled s = false /\ k_read s = [] /\ k_keys s = [] /\ match k_w s with WLock | WCheck | WSleep | WWoke => True | _ => False end.
Lemma early_step sgn a s s' : early_ok s -> (forall c, a <> MCall c) -> k_step sgn a s = Some s' -> early_ok s' \/ k_m s' = MAct4.
Proof.
  unfold early_ok, early. intros (Hm & He & Hr & Hk & Hw) Ha Hs. unfold k_step in Hs. destruct (k_m s) eqn:Em; try (destruct Hm; fail);
  (destruct a as [| | | |c|t| | |md];
   [unfold w_step, lock in Hs; destruct (k_w s) eqn:Ew; try (destruct Hw; fail); try discriminate; rewrite ?He in Hs; try (destruct (k_mtx s); [discriminate|]); injection Hs as <-; left; k_proj; rewrite ?Em; auto 6
   |unfold m_step, lock in Hs; rewrite Em in Hs; try (destruct (k_mtx s); [discriminate|]); injection Hs as <-; k_proj; auto 8
   |destruct (k_w s); try discriminate; injection Hs as <-; left; k_proj; rewrite ?Em; auto 6
   |destruct (k_w s); try (destruct Hw; fail); discriminate
   |discriminate
   |injection Hs as <-; left; k_proj; rewrite ?Em; auto 6
   |injection Hs as <-; left; k_proj; rewrite ?Em; auto 6
   |destruct (k_ready s); [discriminate|]; injection Hs as <-; left; k_proj; auto 6
   |discriminate]).
Qed.
Lemma early_run sgn m j l s : kb_reaches sgn m j l s -> (forall c, no_call c l) -> early s -> k_read s = [] /\ k_keys s = [].
Proof.
  intros H Hn He. enough (Hq : (forall c, no_call c l) -> early_ok s \/ match k_m s with MAct4 | MAct5 | MUser => True | _ => False end).
  { destruct (Hq Hn) as [(_ & _ & Hr & Hk & _)|Hm]; [auto|]. unfold early in He. destruct (k_m s); destruct Hm; destruct He. }
  clear Hn He. apply (k_run_hist sgn (fun l s => (forall c, no_call c l) -> early_ok s \/ match k_m s with MAct4 | MAct5 | MUser => True | _ => False end)) with (l1 := []) (l2 := l) (s := kbd_init m j); [| |exact H].
  - clear. intros l a s s' Hi Hs Hn. assert (Ha : forall c, a <> MCall c) by (intros c ->; apply (Hn c), in_or_app; right; left; reflexivity).
    assert (Hn' : forall c, no_call c l) by (intros c Hin; apply (Hn c), in_or_app; left; exact Hin). destruct (Hi Hn') as [He|He].
    + destruct (early_step sgn a s s' He Ha Hs) as [He'|He']; [left; exact He'|right; rewrite He'; exact Logic.I].
    + right. destruct a as [| | | |c|t| | |md].
      * apply step_worker, w_step_cases in Hs. destruct Hs as [p Hw Hmt ->|Hw Hx|Hw Hx|Hw|Hw Hst|Hw Hst Hq|f c s1 Hf Hg|k Hw]; try exact He. apply getchar_inv in Hg as (r & e & cs & -> & _). exact He.
      * apply step_main in Hs. unfold m_step in Hs. destruct (k_m s); try (destruct He; fail); try discriminate; injection Hs as <-; exact Logic.I.
      * unfold k_step in Hs. destruct (k_m s) eqn:Em, (k_w s); try discriminate; injection Hs as <-; k_proj; rewrite Em; exact He.
      * unfold k_step in Hs. destruct (k_m s) eqn:Em, (k_w s); try discriminate; injection Hs as <-; k_proj; rewrite Em; exact He.
      * exfalso. exact (Ha c eq_refl).
      * unfold k_step in Hs. destruct (k_m s) eqn:Em; try discriminate; injection Hs as <-; k_proj; rewrite Em; exact He.
      * unfold k_step in Hs. destruct (k_m s) eqn:Em; try discriminate; injection Hs as <-; k_proj; rewrite Em; exact He.
      * unfold k_step in Hs. destruct (k_ready s); destruct (k_m s) eqn:Em; try discriminate; injection Hs as <-; k_proj; exact He.
      * unfold k_step in Hs. destruct (k_m s) eqn:Em; try discriminate; injection Hs as <-; k_proj; rewrite Em; exact He.
  - intros _. left. repeat split.
Qed.
