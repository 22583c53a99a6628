(** * Proofs: what telnet clients receive *)

From Verif Require Import Base SplitModel FromStringModel HistoryModel HistorySpec StorageModel PrefixModel TerminalModel MenuModel SessionModel CompletionModel ProcessorModel
  SessionSpec SessionProofs InvariantProofs OutputProofs ProcessorSpec ProcessorProofs TelnetModel TelnetSpec TelnetProofs ServerModel ServerSpec ServerProofs IsolationSpec IsolationProofs
  AcceptSpec AcceptProofs HookInvProofs WireModel WireSpec.
Open Scope nat_scope.
Open Scope list_scope.

(** ** The events of hooks are next to each other *)
Section Settled.
Context (E : env).
Definition settled (tr : list event) : Prop := forall a s k args b, tr = a ++ EvHook s k args :: b ->
  exists es b', b = es ++ b' /\ Forall2 (does s) (filter shows (ur_ops (e_hook E s k args (a ++ [EvHook s k args])))) es.

(** Appending events that are not hooks. *)
Definition no_hook (e : event) : Prop := match e with EvHook _ _ _ => False | _ => True end.
Lemma split_app {A} (t1 : list A) : forall t2 a x b, t1 ++ t2 = a ++ x :: b ->
  (exists b1, t1 = a ++ x :: b1 /\ b = b1 ++ t2) \/ (exists a2, a = t1 ++ a2 /\ t2 = a2 ++ x :: b).
Proof.
  induction t1 as [|y t1 IH]; intros t2 a x b H.
  - right. exists a. split; [reflexivity|exact H].
  - destruct a as [|z a]; cbn in H; injection H as -> H.
    + left. exists t1. split; [reflexivity|symmetry; exact H].
    + destruct (IH _ _ _ _ H) as [(b1 & -> & ->)|(a2 & -> & ->)]; [left; exists b1|right; exists a2]; split; reflexivity.
Qed.
Lemma settled_app tr evs : settled tr -> Forall no_hook evs -> settled (tr ++ evs).
Proof.
  intros H Hn a s k args b Heq. destruct (split_app _ _ _ _ _ Heq) as [(b1 & Ht & ->)|(a2 & -> & He)].
  - destruct (H _ _ _ _ _ Ht) as (es & b' & -> & Hd). exists es, (b' ++ evs). rewrite app_assoc. split; [reflexivity|exact Hd].
  - exfalso. rewrite He in Hn. apply Forall_app in Hn as (_ & Hn). inversion Hn. contradiction.
Qed.
Lemma ops_events os : forall w, exists evs, w_trace (apply_ops os w) = w_trace w ++ evs /\ Forall2 (does (w_sid w)) (filter shows os) evs /\ Forall no_hook evs /\
  w_sid (apply_ops os w) = w_sid w.
Proof.
  induction os as [|o os IH]; intros w; [exists []; rewrite app_nil_r; repeat split; constructor|].
  change (apply_ops (o :: os) w) with (apply_ops os (apply_op w o)). destruct (IH (apply_op w o)) as (evs & Ht & Hd & Hn & Hs).
  assert (Hstep : exists e1, w_trace (apply_op w o) = w_trace w ++ e1 /\ Forall2 (does (w_sid w)) (filter shows [o]) e1 /\ Forall no_hook e1 /\ w_sid (apply_op w o) = w_sid w).
  { destruct o as [s|s|id|id|id|pid c]; cbn [apply_op out].
    1:{ exists [EvOut (w_sid w) s]. repeat split; repeat constructor. }
    1:{ exists [EvBroadcast s]. repeat split; repeat constructor. }
    1,2,3: exists []; rewrite app_nil_r; repeat split; constructor.
    destruct (relabel (w_next w) c) as (c', n). exists [EvInsert pid (w_next w)]. repeat split; repeat constructor. }
  destruct Hstep as (e1 & Ht1 & Hd1 & Hn1 & Hs1). exists (e1 ++ evs). rewrite Ht, Ht1, app_assoc. split; [reflexivity|]. rewrite Hs1 in *.
  split; [|split; [apply Forall_app; split; assumption|exact Hs]]. change (o :: os) with ([o] ++ os). rewrite filter_app. apply Forall2_app; assumption.
Qed.
Definition steady (w : world) : Prop := settled (w_trace w).
Lemma steady_log e w : no_hook e -> steady w -> steady (log e w).
Proof. intros He H. apply settled_app; [exact H|repeat constructor; exact He]. Qed.
Lemma steady_user u vs w : steady w -> steady (snd (call_user E u vs w)).
Proof.
  intros H. unfold call_user. cbn zeta. cbn [snd]. match goal with |- steady (apply_ops ?os ?w1) => destruct (ops_events os w1) as (evs & Ht & _ & Hn & _) end.
  unfold steady. rewrite Ht. apply settled_app; [|exact Hn]. apply (steady_log (EvCall (w_sid w) u vs)); [exact Logic.I|exact H].
Qed.
Lemma steady_hook k args w : steady w -> h_inv steady (run_hook E k args w).
Proof.
  intros H. unfold run_hook. cbn zeta. set (r := e_hook E _ k args _). destruct (ops_events (ur_ops r) (log (EvHook (w_sid w) k args) w)) as (evs & Ht & Hd & Hn & _).
  assert (Hp : steady (apply_ops (ur_ops r) (log (EvHook (w_sid w) k args) w))).
  { unfold steady. rewrite Ht. cbn [log w_trace w_sid] in *. intros a s k' args' b Heq. rewrite <- app_assoc in Heq.
    destruct (split_app _ _ _ _ _ Heq) as [(b1 & Ht1 & ->)|(a2 & -> & He)].
    - destruct (H _ _ _ _ _ Ht1) as (es & b' & -> & Hd'). exists es, (b' ++ [EvHook (w_sid w) k args] ++ evs). rewrite <- app_assoc. split; [reflexivity|exact Hd'].
    - destruct a2 as [|e a2]; cbn in He.
      + injection He as <- <- <- <-. rewrite app_nil_r. exists evs, []. rewrite app_nil_r. split; [reflexivity|]. exact Hd.
      + injection He as <- He. exfalso. rewrite He in Hn. apply Forall_app in Hn as (_ & Hn). inversion Hn. contradiction. }
  destruct (ur_end r); exact Hp.
Qed.
Lemma steady_press fuel tty k p : steady (p_world p) -> hp_inv steady (press E fuel tty k p).
Proof.
  apply hk_press; try (intros; assumption).
  - intros u vs w H. apply steady_user, H.
  - intros k' args w H. apply steady_hook, H.
  - intros s w H. apply steady_log; [exact Logic.I|exact H].
  - intros b w H. apply steady_log; [exact Logic.I|exact H].
Qed.
Lemma steady_connect tty c sid size root nxt st tr : settled tr ->
  hp_inv steady (p_bind (of_hres (session_enter E (out (flat_map written greeting) (open_session sid size root nxt st tr))) term_init) (p_prompt tty c)).
Proof.
  intros H. assert (H0 : steady (out (flat_map written greeting) (open_session sid size root nxt st tr))) by (apply steady_log; [exact Logic.I|exact H]).
  pose proof (hk_enter_inv E steady steady_hook _ H0) as He.
  destruct (session_enter E _) as [w1|x w1| |]; cbn [of_hres p_bind]; try exact Logic.I; [|exact He].
  apply hk_prompt; [|exact He]. intros s w Hw. apply steady_log; [exact Logic.I|exact Hw].
Qed.
End Settled.

(** ** The shape of steps *)
Section Serve.
Context (E : env) (net : nat -> list event -> bool) (size fuel : nat) (tty : bool) (color : list event -> bool * bool).
Notation step := (sv_step E net size fuel tty color).
Notation run := (sv_run E net size fuel tty color).
Notation TE := (telnet_env E net).

Inductive shape (i : input) (sv sv' : server) : Prop :=
| sh_same : sv_trace sv' = sv_trace sv -> sv_sid sv' = sv_sid sv -> (forall j, sv_conns sv j = None -> sv_conns sv' j = None) ->
    (forall q, i = IRun -> sv_queue sv <> TkAccept true :: q) -> shape i sv sv'
| sh_key j k q c evs : i = IRun -> sv_queue sv = TkKey j k :: q -> sv_conns sv j = Some c -> sv_trace sv' = sv_trace sv ++ evs -> Forall (by_session j) evs ->
    sv_sid sv' = sv_sid sv -> (forall j, sv_conns sv' j <> None <-> sv_conns sv j <> None) -> shape i sv sv'
| sh_accept q evs : i = IRun -> sv_queue sv = TkAccept true :: q -> sv_trace sv' = sv_trace sv ++ EvOut (sv_sid sv) hello :: evs ->
    (forall j, j <> sv_sid sv -> own j evs = []) ->
    sv_sid sv' = S (sv_sid sv) -> (forall j, j <> sv_sid sv -> sv_conns sv' j = sv_conns sv j) -> shape i sv sv'.
Definition stepped (r : vres) (sv' : server) : Prop := r = VOk sv' \/ exists x, r = VExc x sv'.
Lemma step_shape i sv sv' : stepped (step i sv) sv' -> shape i sv sv'.
Proof.
  intros H. destruct i as [|ok|sid r]; cbn [sv_step] in H.
  - destruct (sv_queue sv) as [|t q] eqn:Hq; [destruct H as [H|(x & H)]; [injection H as <-|discriminate]; apply sh_same; auto; intros q _; congruence|].
    destruct t as [sid k|sid r|ok]; cbn [run_task set_conns sv_conns sv_trace] in H.
    + destruct (sv_conns sv sid) as [c|] eqn:Hc; [|destruct H as [H|(x & H)]; discriminate]. destruct (color (sv_trace sv)) as [c1 c2].
      match type of H with context[press ?e ?f ?t ?k ?p] => pose proof (steps_press e f t k p) as Hp; destruct (press e f t k p) as [p'|x p'| |] end;
        try (destruct H as [H|(x & H)]; discriminate); (assert (H0 : sv' = after_key E net (set_conns (sv_conns sv) q sv) sid c p') by (destruct H as [H|(y & H)]; congruence));
        clear H; subst sv'; destruct Hp as (_ & evs & Ht & Hz); cbn in Ht, Hz; (eapply sh_key; [reflexivity|exact Hq|exact Hc|exact Ht|exact Hz|reflexivity|]);
        intros j; cbn [after_key sv_conns set_conns]; (destruct (Nat.eq_dec j sid) as [->|Hn]; [rewrite upd_conn_same, Hc; split; discriminate|rewrite upd_conn_other by exact Hn; reflexivity]).
    + destruct (sv_conns sv sid) as [c|] eqn:Hc; [|destruct H as [H|(x & H)]; discriminate]. destruct H as [H|(x & H)]; [injection H as <-|discriminate].
      assert (Hu : forall c' j, sv_conns sv j = None -> upd_conn (sv_conns sv) sid c' j = None) by (intros c' j Hj; rewrite upd_conn_other; [exact Hj|congruence]).
      unfold run_read. cbn [set_conns sv_trace]. destruct (closed E net sid (sv_trace sv)); [|destruct r; [destruct (receive chunk (c_dev c)) as (d, (ks, s))| |]];
        (apply sh_same; [reflexivity|reflexivity|apply Hu|intros q' _; congruence]).
    + unfold run_accept in H. destruct ok; [|destruct H as [H|(x & H)]; [injection H as <-|discriminate]; apply sh_same; auto; intros q' _; congruence].
      cbn [set_conns sv_sid sv_root sv_next sv_store sv_trace] in H.
      match type of H with context[p_prompt tty ?c] => pose proof (steps_connect E net tty c (sv_sid sv) size (sv_root sv) (sv_next sv) (sv_store sv) (sv_trace sv)) as Hp end.
      match type of H with context[p_bind ?a ?b] => destruct (p_bind a b) as [p|x p| |] end; try (destruct H as [H|(y & H)]; discriminate);
        destruct Hp as (evs & Ht & Hz); cbn [app] in Ht;
        (assert (Ho : forall j, j <> sv_sid sv -> own j (first_call E (sv_sid sv) ++ evs) = []) by
          (intros j Hj; pose proof (own_first_other E j (sv_sid sv) Hj) as Hf; cbn [own filter] in Hf; destruct (Nat.eqb_spec (sv_sid sv) j) as [->|_]; [congruence|];
           rewrite own_app, (own_by j _ evs Hz Hj), app_nil_r; exact Hf)).
      * destruct H as [H|(y & H)]; [injection H as <-|discriminate]. eapply sh_accept; [reflexivity|exact Hq|exact Ht|exact Ho|reflexivity|].
        intros j Hj. cbn [sv_conns]. apply upd_conn_other, Hj.
      * destruct H as [H|(y & H)]; [discriminate|injection H as _ <-]. eapply sh_accept; [reflexivity|exact Hq|exact Ht|exact Ho|reflexivity|]. reflexivity.
  - destruct (sv_accepting sv); (destruct H as [H|(x & H)]; [injection H as <-|discriminate]); apply sh_same; auto; discriminate.
  - destruct (sv_conns sv sid) as [c|] eqn:Hc; [destruct (c_reading c)|]; (destruct H as [H|(x & H)]; [injection H as <-|discriminate]); apply sh_same; auto; try discriminate.
    intros j Hj. cbn. rewrite upd_conn_other; [exact Hj|congruence].
Qed.

(** Settled traces. *)
Definition v_settled (r : vres) : Prop := match r with VOk sv | VExc _ sv => settled TE (sv_trace sv) | _ => True end.
Lemma settled_step i sv : settled TE (sv_trace sv) -> v_settled (step i sv).
Proof.
  intros H. destruct i as [|ok|sid r]; cbn [sv_step].
  - destruct (sv_queue sv) as [|t q]; [exact H|]. destruct t as [sid k|sid r|ok]; cbn [run_task set_conns sv_conns sv_trace].
    + destruct (sv_conns sv sid) as [c|]; [|exact Logic.I]. destruct (color (sv_trace sv)) as [c1 c2].
      match goal with |- context[press ?e ?f ?t ?k ?p] => assert (Hp : hp_inv (steady e) (press e f t k p)) by (apply steady_press; exact H); destruct (press e f t k p) as [p'|x p'| |] end;
        try exact Logic.I; exact Hp.
    + destruct (sv_conns sv sid) as [c|]; [|exact Logic.I]. unfold run_read. cbn [set_conns sv_trace].
      destruct (closed E net sid (sv_trace sv)); [|destruct r; [destruct (receive chunk (c_dev c)) as (d, (ks, s))| |]]; exact H.
    + unfold run_accept. destruct ok; [|exact H]. cbn [set_conns sv_sid sv_root sv_next sv_store sv_trace].
      match goal with |- context[p_prompt tty ?c] => pose proof (steady_connect TE tty c (sv_sid sv) size (sv_root sv) (sv_next sv) (sv_store sv) (sv_trace sv) H) as Hp end.
      match goal with |- context[p_bind ?a ?b] => destruct (p_bind a b) as [p|x p| |] end; try exact Logic.I; exact Hp.
  - destruct (sv_accepting sv); exact H.
  - destruct (sv_conns sv sid) as [c|]; [|exact H]. destruct (c_reading c); exact H.
Qed.
Lemma settled_run is : forall sv, settled TE (sv_trace sv) -> v_settled (run is sv).
Proof.
  induction is as [|i is IH]; intros sv H; [exact H|]. cbn [sv_run]. pose proof (settled_step i sv H) as Hs.
  destruct (step i sv); try exact Logic.I; apply IH, Hs.
Qed.
Lemma settled_init root nxt st : settled TE (sv_trace (server_init root nxt st)).
Proof. intros a s k args b H. destruct a; discriminate. Qed.

(** ** Delivering events *)
Section Wire.
Context (sid : nat).
Notation after := (after_event E net sid).
Fixpoint gets (seen es : list event) (l : option nat) : list event :=
  match l, es with
  | Some 0, _ | _, [] => []
  | _, e :: es' => e :: gets (seen ++ [e]) es' (after seen e l)
  end.
Fixpoint lefts (seen es : list event) (l : option nat) : option nat :=
  match es with [] => l | e :: es' => lefts (seen ++ [e]) es' (after seen e l) end.

Lemma encode_crlf s : encode s = crlf s.
Proof. unfold encode, crlf. apply flat_map_ext. intros c. destruct (Ascii.eqb_spec c "010"); subst; reflexivity. Qed.
Lemma audible_nil : audible sid [] = [].
Proof. reflexivity. Qed.
Lemma audible_app a b : audible sid (a ++ b) = audible sid a ++ audible sid b.
Proof. apply flat_map_app. Qed.
Lemma crlf_app a b : crlf (a ++ b) = crlf a ++ crlf b.
Proof. apply flat_map_app. Qed.
Lemma gets_zero seen es : gets seen es (Some 0) = [].
Proof. destruct es; reflexivity. Qed.
Lemma deliver_gets es : forall seen k, deliver E net sid seen es k =
  mkSock (sk_sent k ++ crlf (audible sid (gets seen es (sk_left k)))) (lefts seen es (sk_left k)).
Proof.
  induction es as [|e es IH]; intros seen [b l]; cbn [deliver gets lefts sk_sent sk_left].
  - destruct l as [[|n]|]; cbn; rewrite app_nil_r; reflexivity.
  - unfold send. cbn [sk_left sk_sent]. destruct l as [[|n]|]; cbn [sk_left sk_sent].
    + rewrite IH. cbn [sk_left sk_sent after_event pred]. rewrite gets_zero. reflexivity.
    + rewrite IH. cbn [sk_left sk_sent]. rewrite (encode_crlf (text_of sid e)), <- app_assoc. unfold audible at 2. cbn [flat_map]. fold (audible sid (gets (seen ++ [e]) es (after seen e (Some (S n))))).
      rewrite crlf_app. reflexivity.
    + rewrite IH. cbn [sk_left sk_sent]. rewrite (encode_crlf (text_of sid e)), <- app_assoc. unfold audible at 2. cbn [flat_map]. fold (audible sid (gets (seen ++ [e]) es (after seen e None))).
      rewrite crlf_app. reflexivity.
Qed.
Lemma lefts_zero es : forall seen, lefts seen es (Some 0) = Some 0.
Proof. induction es as [|e es IH]; intros seen; [reflexivity|apply IH]. Qed.
Lemma lefts_app a : forall seen b l, lefts seen (a ++ b) l = lefts (seen ++ a) b (lefts seen a l).
Proof.
  induction a as [|e a IH]; intros seen b l; [rewrite app_nil_r; reflexivity|]. cbn [app lefts]. rewrite IH, <- app_assoc. reflexivity.
Qed.
Lemma gets_app a : forall seen b l, gets seen (a ++ b) l = gets seen a l ++ gets (seen ++ a) b (lefts seen a l).
Proof.
  induction a as [|e a IH]; intros seen b l.
  - cbn [app lefts]. rewrite app_nil_r. destruct l as [[|n]|]; destruct b; reflexivity.
  - cbn [app lefts]. destruct l as [[|n]|]; cbn [gets].
    + cbn [after_event pred]. rewrite lefts_zero, gets_zero. reflexivity.
    + rewrite IH, <- app_assoc. reflexivity.
    + rewrite IH, <- app_assoc. reflexivity.
Qed.
Lemma gets_some es : forall seen n, gets seen es (Some n) = firstn n es /\ lefts seen es (Some n) = Some (n - length es).
Proof.
  induction es as [|e es IH]; intros seen n.
  - cbn. rewrite Nat.sub_0_r. destruct n; split; reflexivity.
  - destruct n as [|n]; [rewrite gets_zero, lefts_zero; split; reflexivity|]. cbn [gets lefts after_event pred length firstn].
    destruct (IH (seen ++ [e]) n) as (-> & ->). split; reflexivity.
Qed.
(** As long as the session does not close its socket. *)
Lemma gets_open es : forall seen, e_has E KSesExit && closed_in E net sid seen es = false -> gets seen es None = es /\ lefts seen es None = None.
Proof.
  induction es as [|e es IH]; intros seen H; [split; reflexivity|]. cbn [gets lefts closed_in] in *.
  assert (Ha : after seen e None = None /\ e_has E KSesExit && closed_in E net sid (seen ++ [e]) es = false).
  { destruct (e_has E KSesExit) eqn:Hh; cbn [andb] in H.
    - apply orb_false_iff in H as (H & H'). split; [|exact H']. destruct e as [ | | |i k args| |]; try reflexivity. destruct k; try reflexivity. cbn [after_event].
      rewrite Hh, andb_true_r. rewrite H. reflexivity.
    - split; [|reflexivity]. destruct e as [ | | |i k args| |]; try reflexivity. destruct k; try reflexivity. cbn [after_event]. rewrite Hh, andb_false_r. reflexivity. }
  destruct Ha as (-> & Ha). destruct (IH _ Ha) as (-> & ->). split; reflexivity.
Qed.
Lemma first_close es : forall seen, closed_in E net sid seen es = true ->
  exists a args b, es = a ++ EvHook sid KSesExit args :: b /\ closed_in E net sid seen a = false /\
    returns (e_hook E sid KSesExit args (seen ++ a ++ [EvHook sid KSesExit args])) = true /\ net sid (seen ++ a ++ [EvHook sid KSesExit args]) = true.
Proof.
  induction es as [|e es IH]; intros seen H; [discriminate|]. cbn [closed_in] in H.
  destruct (match e with EvHook i KSesExit args => Nat.eqb i sid && returns (e_hook E sid KSesExit args (seen ++ [e])) && net sid (seen ++ [e]) | _ => false end) eqn:He.
  - destruct e as [ | | |i k args| |]; try discriminate. destruct k; try discriminate. apply andb_true_iff in He as (He & Hn). apply andb_true_iff in He as (He & Hr).
    apply Nat.eqb_eq in He as ->. exists [], args, es. repeat split; assumption.
  - cbn [orb] in H. destruct (IH _ H) as (a & args & b & -> & Hc & Hr & Hn). exists (e :: a), args, b. split; [reflexivity|]. cbn [closed_in]. rewrite He, Hc. cbn [app].
    rewrite <- app_assoc in Hr, Hn. cbn [app] in Hr, Hn. split; [reflexivity|]. split; assumption.
Qed.
Lemma own_closed es : forall seen, own sid es = [] -> closed_in E net sid seen es = false.
Proof.
  induction es as [|e es IH]; intros seen H; [reflexivity|]. cbn [own filter closed_in] in *. fold (own sid es) in H.
  destruct e as [i s|s|i h vs|i k args|pid id|i on]; cbn in H |- *; try (apply IH; exact H); destruct (Nat.eqb i sid) eqn:Hi; try discriminate; try (apply IH; exact H).
  destruct k; cbn [andb orb]; apply IH; exact H.
Qed.

(** ** What was sent so far *)
Definition told (sv : server) (k : sock) (ss : list str) : Prop :=
  if sid <? sv_sid sv then exists a b rest ps,
    sv_trace sv = a ++ b ++ rest /\ own sid a = [] /\ (exists b', b = EvOut sid hello :: b') /\ settled TE (a ++ b) /\ own sid rest = [] /\ (sv_conns sv sid <> None -> rest = []) /\
    sk_sent k = flat_map piece_bytes ps /\ texts ps = audible sid (gets a b None) /\ sk_left k = lefts a b None /\ replies_in ps = ss /\ (exists s ps', ps = Text (hello ++ s) :: ps')
  else k = sock_init /\ ss = [] /\ own sid (sv_trace sv) = [] /\ sv_conns sv sid = None.

Lemma texts_app a b : texts (a ++ b) = texts a ++ texts b.
Proof. apply flat_map_app. Qed.
Lemma replies_in_app a b : replies_in (a ++ b) = replies_in a ++ replies_in b.
Proof. apply flat_map_app. Qed.
Lemma texts_replies l : texts (map Reply l) = [].
Proof. induction l as [|x l IH]; [reflexivity|exact IH]. Qed.
Lemma replies_replies l : replies_in (map Reply l) = l.
Proof. induction l as [|x l IH]; [reflexivity|]. cbn. f_equal. exact IH. Qed.
Lemma bytes_replies l : flat_map piece_bytes (map Reply l) = concat l.
Proof. induction l as [|x l IH]; [reflexivity|]. cbn. f_equal. exact IH. Qed.

Lemma replies_concat i sv : telnet_replies E net sid i sv = concat (replies E net sid i sv).
Proof.
  unfold telnet_replies, replies. destruct i as [|ok|j r]; try reflexivity. destruct (sv_queue sv) as [|t q]; [reflexivity|]. destruct t as [j k|j r|ok]; try reflexivity.
  destruct (sv_conns sv sid) as [c|]; [|destruct r; reflexivity]. destruct (Nat.eqb j sid); destruct r as [chunk| |]; try reflexivity;
    destruct (closed E net sid (sv_trace sv)); reflexivity.
Qed.
Lemma no_replies i sv : (forall j r q, i = IRun -> sv_queue sv <> TkRead j r :: q) -> replies E net sid i sv = [].
Proof.
  intros H. unfold replies. destruct i as [|ok|j r]; try reflexivity. destruct (sv_queue sv) as [|t q] eqn:Hq; [reflexivity|]. destruct t as [j k|j r|ok]; try reflexivity.
  exfalso. exact (H j r q eq_refl eq_refl).
Qed.
Lemma dead_replies i sv : sv_conns sv sid = None -> replies E net sid i sv = [].
Proof. intros H. unfold replies. rewrite H. destruct i; try reflexivity. destruct (sv_queue sv) as [|[ |j [chunk| |]| ] q]; reflexivity. Qed.
Lemma closed_replies i sv : closed E net sid (sv_trace sv) = true -> replies E net sid i sv = [].
Proof.
  intros H. unfold replies. rewrite H. destruct i; try reflexivity. destruct (sv_queue sv) as [|[ |j [chunk| |]| ] q]; try reflexivity.
  destruct (sv_conns sv sid); [|reflexivity]. rewrite andb_false_r. reflexivity.
Qed.
Lemma skip_app {A} (a b : list A) : skipn (length a) (a ++ b) = b.
Proof. rewrite skipn_app, skipn_all, Nat.sub_diag. reflexivity. Qed.
Lemma send_nil k : send [] k = k.
Proof. unfold send. destruct k as [b [[|n]|]]; cbn; rewrite ?app_nil_r; reflexivity. Qed.

(** New events, and no replies. *)
Lemma told_events sv sv' k ss evs : settled TE (sv_trace sv') -> told sv k ss -> sid < sv_sid sv -> sid < sv_sid sv' -> sv_trace sv' = sv_trace sv ++ evs ->
  (sv_conns sv' sid <> None <-> sv_conns sv sid <> None) -> (sv_conns sv sid = None -> own sid evs = []) ->
  told sv' (if match sv_conns sv sid with Some _ => true | None => false end then deliver E net sid (sv_trace sv) evs k else k) ss.
Proof.
  intros Hset H Hl Hl' Ht Hc Ho. unfold told in *. apply Nat.ltb_lt in Hl as Hl0. apply Nat.ltb_lt in Hl' as Hl0'. rewrite Hl0 in H. rewrite Hl0'.
  destruct H as (a & b & rest & ps & He & Ha & Hb & Hsa & Hr & Hlive & Hs & Hx & Hleft & Hrp & Hfirst). destruct (sv_conns sv sid) as [c|].
  - rewrite (Hlive ltac:(discriminate)), app_nil_r in He. rewrite deliver_gets, He, Hleft. exists a, (b ++ evs), [], (ps ++ [Text (audible sid (gets (a ++ b) evs (lefts a b None)))]).
    rewrite Ht, He in Hset. rewrite app_nil_r, Ht, He, app_assoc. split; [reflexivity|]. split; [exact Ha|]. destruct Hb as (b' & ->). split; [exists (b' ++ evs); reflexivity|]. split; [exact Hset|]. split; [reflexivity|].
    split; [reflexivity|]. cbn [sk_sent sk_left]. rewrite flat_map_app, texts_app, replies_in_app. cbn [flat_map piece_bytes texts replies_in]. rewrite !app_nil_r, Hs, Hx, Hrp, gets_app, lefts_app, audible_app.
    destruct Hfirst as (s0 & ps' & ->). repeat (split; [reflexivity|]). eexists s0, _. reflexivity.
  - exists a, b, (rest ++ evs), ps. rewrite Ht, He, <- !app_assoc, own_app, Hr, (Ho eq_refl). repeat (split; [first [assumption|reflexivity]|]).
    split; [|repeat (split; [assumption|]); assumption]. intros H. exfalso. apply Hc in H. apply H. reflexivity.
Qed.
Lemma told_replies sv k ss l : told sv k ss -> (l = [] \/ (sv_conns sv sid <> None /\ closed E net sid (sv_trace sv) = false)) -> told sv (send (concat l) k) (ss ++ l).
Proof.
  intros H [->|(Hc & Ho)]; [rewrite send_nil, app_nil_r; exact H|]. unfold told in *. destruct (sid <? sv_sid sv); [|destruct H as (_ & _ & _ & H); contradiction].
  destruct H as (a & b & rest & ps & He & Ha & Hb & Hsa & Hr & Hlive & Hs & Hx & Hleft & Hrp & Hfirst). pose proof (Hlive Hc) as ->. rewrite app_nil_r in He.
  assert (Hn : sk_left k = None). { rewrite Hleft. apply gets_open. rewrite He, closed_app in Ho. apply orb_false_iff in Ho. apply Ho. }
  exists a, b, [], (ps ++ map Reply l). rewrite app_nil_r. repeat (split; [assumption|]). unfold send. rewrite Hn. cbn [sk_sent sk_left].
  rewrite flat_map_app, texts_app, replies_in_app, texts_replies, replies_replies, bytes_replies, app_nil_r, Hs, Hx, Hrp. rewrite Hleft in Hn.
  destruct Hfirst as (s0 & ps' & ->). repeat (split; [first [reflexivity|symmetry; exact Hn]|]). eexists s0, _. reflexivity.
Qed.

Lemma told_step i sv sv' k ss : settled TE (sv_trace sv') -> begun E sv -> told sv k ss -> stepped (step i sv) sv' ->
  told sv' (wire_step E net sid i sv sv' k) (ss ++ replies E net sid i sv).
Proof.
  intros Hset Hbg H Hst. pose proof (step_shape _ _ _ Hst) as Hsh. unfold wire_step. rewrite replies_concat.
  destruct Hsh as [Ht Hs Hc Hna|j key q c evs Hi Hq Hc Ht Hz Hs Hcs|q evs Hi Hq Ht Ho Hs Hcs].
  - (* nothing is printed *)
    rewrite Ht, skipn_all. cbn [deliver]. replace (if listens sid i sv then k else k) with k by (destruct (listens sid i sv); reflexivity).
    assert (Hr : told sv (send (concat (replies E net sid i sv)) k) (ss ++ replies E net sid i sv)).
    { apply told_replies; [exact H|]. destruct (sv_conns sv sid) as [c|] eqn:Hcc; [|left; apply dead_replies, Hcc].
      destruct (closed E net sid (sv_trace sv)) eqn:Hcl; [left; apply closed_replies, Hcl|right; split; [discriminate|reflexivity]]. }
    unfold told in Hr |- *. rewrite Hs, Ht. destruct (sid <? sv_sid sv).
    + destruct Hr as (a & b & rest & ps & He & Ha & Hb & Hsa & Hr & Hlive & Hrest). exists a, b, rest, ps. repeat (split; [assumption|]). split; [|exact Hrest].
      intros Hn. apply Hlive. intros Hx. apply Hn, Hc, Hx.
    + destruct Hr as (Hk & Hss & Ho & Hn). auto.
  - (* a key *)
    rewrite (no_replies i sv) by (intros j' r' q' _; congruence). cbn [concat]. rewrite send_nil, app_nil_r, Ht, skip_app.
    replace (listens sid i sv) with (match sv_conns sv sid with Some _ => true | None => false end) by (unfold listens; subst i; rewrite Hq; destruct (sv_conns sv sid); reflexivity).
    assert (Hj : j < sv_sid sv). { specialize (Hbg j). destruct (Nat.ltb_spec j (sv_sid sv)); [assumption|]. destruct Hbg. congruence. }
    destruct (Nat.ltb_spec sid (sv_sid sv)) as [Hl|Hl].
    + apply (told_events sv sv' k ss evs Hset H Hl); [lia|exact Ht|apply Hcs|]. intros Hn. apply (own_by sid j evs Hz). congruence.
    + unfold told in H |- *. rewrite Hs. destruct (Nat.ltb_spec sid (sv_sid sv)); [lia|]. destruct H as (-> & -> & Ho & Hn). rewrite Hn, Ht, own_app, Ho, (own_by sid j evs Hz) by lia.
      repeat (split; [reflexivity|]). destruct (sv_conns sv' sid) eqn:Hcn; [|reflexivity]. exfalso. assert (Hx : sv_conns sv' sid <> None) by congruence. apply Hcs in Hx. contradiction.
  - (* a connection *)
    rewrite (no_replies i sv) by (intros j' r' q' _; congruence). cbn [concat]. rewrite send_nil, app_nil_r, Ht, skip_app.
    destruct (Nat.eq_dec sid (sv_sid sv)) as [Heq|Hne].
    + unfold told in H |- *. rewrite Hs. destruct (Nat.ltb_spec sid (sv_sid sv)); [lia|]. destruct (Nat.ltb_spec sid (S (sv_sid sv))); [|lia]. destruct H as (-> & -> & Hown & Hn).
      unfold listens. rewrite Hn. rewrite Hi, Hq, <- Heq, Nat.eqb_refl, deliver_gets. cbn [sk_sent sk_left sock_init app].
      exists (sv_trace sv), (EvOut sid hello :: evs), [], [Text (audible sid (gets (sv_trace sv) (EvOut sid hello :: evs) None))].
      rewrite Ht, <- Heq in Hset. rewrite app_nil_r, Ht, <- Heq. split; [reflexivity|]. split; [exact Hown|]. split; [eexists; reflexivity|]. split; [exact Hset|]. repeat (split; [reflexivity|]).
      cbn [flat_map piece_bytes texts replies_in]. rewrite !app_nil_r. repeat (split; [reflexivity|]). eexists _, []. cbn [gets audible flat_map]. rewrite Nat.eqb_refl. reflexivity.
    + replace (listens sid i sv) with (match sv_conns sv sid with Some _ => true | None => false end)
        by (unfold listens; rewrite Hi, Hq; destruct (sv_conns sv sid); [reflexivity|]; destruct (Nat.eqb_spec (sv_sid sv) sid); [congruence|reflexivity]).
      assert (Hown : own sid (EvOut (sv_sid sv) hello :: evs) = []).
      { cbn [own filter]. destruct (Nat.eqb_spec (sv_sid sv) sid); [congruence|]. apply Ho. exact Hne. }
      destruct (Nat.ltb_spec sid (sv_sid sv)) as [Hl|Hl].
      * apply (told_events sv sv' k ss _ Hset H Hl); [lia|exact Ht| |intros _; exact Hown]. rewrite Hcs by exact Hne. reflexivity.
      * unfold told in H |- *. rewrite Hs. destruct (Nat.ltb_spec sid (sv_sid sv)); [lia|]. destruct (Nat.ltb_spec sid (S (sv_sid sv))); [lia|]. destruct H as (-> & -> & Ho' & Hn).
        rewrite Hn, Ht, own_app, Ho', Hown, Hcs by exact Hne. auto.
Qed.
Lemma told_run is : forall sv k ss, settled TE (sv_trace sv) -> begun E sv -> told sv k ss ->
  match run is sv with VOk sv' | VExc _ sv' => told sv' (wire_run E net size fuel tty color sid is sv k) (ss ++ replied E net size fuel tty color sid is sv) | _ => True end.
Proof.
  induction is as [|i is IH]; intros sv k ss Hset Hbg H; cbn [sv_run wire_run ServerSpec.replied]; [rewrite app_nil_r; exact H|].
  pose proof (begun_step E net size fuel tty color i sv Hbg) as Hb. pose proof (settled_step i sv Hset) as Hs. rewrite app_assoc.
  destruct (step i sv) as [sv'|x sv'| | |] eqn:Hst; try exact Logic.I; (apply IH; [exact Hs|exact Hb|]); (apply told_step; [exact Hs|exact Hbg|exact H|]); rewrite Hst; [left; reflexivity|right; eexists; reflexivity].
Qed.

(** ** Closing *)
Lemma te_ops s args tr : e_has E KSesExit = true -> ur_ops (e_hook TE s KSesExit args tr) = ur_ops (e_hook E s KSesExit args tr).
Proof.
  intros H. cbn [telnet_env e_hook]. rewrite H. destruct (e_hook E s KSesExit args tr) as [os [|x]]; cbn [ur_end ur_ops]; [|reflexivity].
  destruct (closed E net s (removelast tr)); [reflexivity|]. destruct (net s tr); reflexivity.
Qed.
Lemma shows_noisy os : filter noisy os = filter shows os.
Proof. apply filter_ext. intros o. destruct o; reflexivity. Qed.
Lemma gets_closed a b : own sid a = [] -> settled TE (a ++ b) -> closed E net sid (a ++ b) = true -> closes E net sid (a ++ gets a b None) /\ lefts a b None = Some 0.
Proof.
  intros Ha Hs Hc. rewrite closed_app in Hc. unfold closed at 1 in Hc. rewrite (own_closed a [] Ha), andb_false_r in Hc. cbn [orb] in Hc. apply andb_true_iff in Hc as (Hh & Hc).
  destruct (first_close b a Hc) as (b1 & args & b2 & -> & Hc1 & Hr & Hn).
  assert (Ho1 : e_has E KSesExit && closed_in E net sid a b1 = false) by (rewrite Hc1; apply andb_false_r).
  destruct (gets_open b1 a Ho1) as (Hg1 & Hl1).
  assert (Haf : after_event E net sid (a ++ b1) (EvHook sid KSesExit args) None = Some (length (filter shows (ur_ops (e_hook E sid KSesExit args (a ++ b1 ++ [EvHook sid KSesExit args])))))).
  { cbn [after_event]. rewrite <- app_assoc, Nat.eqb_refl, Hh, Hr, Hn, shows_noisy. reflexivity. }
  rewrite app_assoc in Hs. destruct (Hs _ _ _ _ _ eq_refl) as (es & b' & -> & Hd). rewrite (te_ops _ _ _ Hh), <- app_assoc in Hd.
  assert (Hlen : length es = length (filter shows (ur_ops (e_hook E sid KSesExit args (a ++ b1 ++ [EvHook sid KSesExit args]))))) by (clear -Hd; induction Hd as [|o e os' es' _ _ IH]; [reflexivity|cbn; f_equal; exact IH]).
  rewrite gets_app, lefts_app, Hg1, Hl1. cbn [gets lefts]. rewrite Haf, <- Hlen.
  destruct (gets_some (es ++ b') ((a ++ b1) ++ [EvHook sid KSesExit args]) (length es)) as (Hg & Hl). rewrite Hg, Hl. rewrite firstn_app, firstn_all, Nat.sub_diag, firstn_O, app_nil_r, app_length.
  split; [|f_equal; lia]. exists (a ++ b1), args, es. cbn zeta. rewrite <- !app_assoc. split; [reflexivity|]. split.
  { rewrite closed_app. unfold closed. rewrite (own_closed a [] Ha), Hc1, !andb_false_r. reflexivity. }
  split; [exact Hn|]. destruct (e_hook E sid KSesExit args (a ++ b1 ++ [EvHook sid KSesExit args])) as [os [|x]]; [|discriminate]. exists os. split; [reflexivity|exact Hd].
Qed.
Lemma since_skip a : forall b, own sid a = [] -> since sid (a ++ b) = since sid b.
Proof.
  induction a as [|e a IH]; intros b H; [reflexivity|]. cbn [app since]. change (e :: a) with ([e] ++ a) in H. rewrite own_app in H. apply app_eq_nil in H as (H1 & H2). rewrite H1. apply IH, H2.
Qed.
Lemma gets_prefix es : forall seen l, exists lost, es = gets seen es l ++ lost.
Proof.
  induction es as [|e es IH]; intros seen l; [exists []; destruct l as [[|n]|]; reflexivity|]. destruct l as [[|n]|]; cbn [gets]; [eexists; reflexivity| |];
    (match goal with |- context[gets ?s es ?l] => destruct (IH s l) as (lost & Hl) end; exists lost; cbn [app]; f_equal; exact Hl).
Qed.
Lemma told_stream sv k ss : told sv k ss -> sid < sv_sid sv ->
  exists ps heard lost, sv_trace sv = heard ++ lost /\ sk_sent k = flat_map piece_bytes ps /\ texts ps = audible sid (since sid heard) /\ replies_in ps = ss /\ (exists s ps', ps = Text (hello ++ s) :: ps') /\
    (closed E net sid (sv_trace sv) = false -> own sid lost = [] /\ (sv_conns sv sid <> None -> lost = [])) /\
    (closed E net sid (sv_trace sv) = true -> closes E net sid heard /\ sk_left k = Some 0).
Proof.
  intros H Hl. unfold told in H. apply Nat.ltb_lt in Hl. rewrite Hl in H. destruct H as (a & b & rest & ps & He & Ha & (b' & Hb) & Hsa & Hr & Hlive & Hs & Hx & Hleft & Hrp & Hfirst).
  destruct (gets_prefix b a None) as (l1 & Hl1). exists ps, (a ++ gets a b None), (l1 ++ rest).
  split; [rewrite He, Hl1 at 1; rewrite <- !app_assoc; reflexivity|]. split; [exact Hs|]. split.
  { rewrite Hx, (since_skip a _ Ha). rewrite Hb. cbn [gets since own filter]. rewrite Nat.eqb_refl. reflexivity. }
  split; [exact Hrp|]. split; [exact Hfirst|]. rewrite He. rewrite app_assoc, closed_app. rewrite (own_closed rest _ Hr), andb_false_r, orb_false_r. split; intros Hc.
  - rewrite closed_app in Hc. apply orb_false_iff in Hc as (_ & Hc). destruct (gets_open b a Hc) as (Hg & _). rewrite Hg in Hl1.
    assert (l1 = []) as -> by (apply (app_inv_head b); rewrite app_nil_r; symmetry; exact Hl1). split; [exact Hr|exact Hlive].
  - rewrite Hleft. exact (gets_closed a b Ha Hsa Hc).
Qed.
Lemma told_init root nxt st : told (server_init root nxt st) sock_init [].
Proof. unfold told. cbn. auto. Qed.
Lemma begun_init root nxt st : begun E (server_init root nxt st).
Proof. intros j. cbn. split; reflexivity. Qed.
Lemma told_reach root nxt st is sv : run is (server_init root nxt st) = VOk sv ->
  told sv (wire_run E net size fuel tty color sid is (server_init root nxt st) sock_init) (replied E net size fuel tty color sid is (server_init root nxt st)).
Proof.
  intros H. pose proof (told_run is _ _ _ (settled_init root nxt st) (begun_init root nxt st) (told_init root nxt st)) as Ht. rewrite H in Ht. exact Ht.
Qed.
Lemma streams root nxt st is sv : run is (server_init root nxt st) = VOk sv -> sid < sv_sid sv ->
  exists ps heard lost, sv_trace sv = heard ++ lost /\
    sk_sent (wire_run E net size fuel tty color sid is (server_init root nxt st) sock_init) = flat_map piece_bytes ps /\
    texts ps = audible sid (since sid heard) /\ replies_in ps = replied E net size fuel tty color sid is (server_init root nxt st) /\
    (exists s ps', ps = Text (hello ++ s) :: ps') /\
    (closed E net sid (sv_trace sv) = false -> own sid lost = [] /\ (sv_conns sv sid <> None -> lost = [])) /\
    (closed E net sid (sv_trace sv) = true -> closes E net sid heard).
Proof.
  intros H Hl. destruct (told_stream _ _ _ (told_reach _ _ _ _ _ H) Hl) as (ps & heard & lost & H1 & H2 & H3 & H4 & Hf & H5 & H6). exists ps, heard, lost.
  repeat (split; [assumption|]). intros Hc. apply H6, Hc.
Qed.
Lemma wire_before root nxt st is sv : run is (server_init root nxt st) = VOk sv -> sv_sid sv <= sid ->
  sk_sent (wire_run E net size fuel tty color sid is (server_init root nxt st) sock_init) = [].
Proof.
  intros H Hl. pose proof (told_reach _ _ _ _ _ H) as Ht. unfold told in Ht. destruct (Nat.ltb_spec sid (sv_sid sv)); [lia|]. destruct Ht as (-> & _). reflexivity.
Qed.

(** Nothing is sent on a closed socket. *)
Lemma wire_shut is : forall sv k, sk_left k = Some 0 -> wire_run E net size fuel tty color sid is sv k = k.
Proof.
  induction is as [|i is IH]; intros sv [b l] Hk; cbn [sk_left] in Hk; subst l; [reflexivity|]. cbn [wire_run].
  assert (Hw : forall sv', wire_step E net sid i sv sv' (mkSock b (Some 0)) = mkSock b (Some 0)).
  { intros sv'. unfold wire_step. assert (Hd : (if listens sid i sv then deliver E net sid (sv_trace sv) (skipn (length (sv_trace sv)) (sv_trace sv')) (mkSock b (Some 0)) else mkSock b (Some 0)) = mkSock b (Some 0)).
    { destruct (listens sid i sv); [|reflexivity]. rewrite deliver_gets. cbn [sk_left sk_sent]. rewrite gets_zero, lefts_zero. cbn. rewrite app_nil_r. reflexivity. }
    rewrite Hd. reflexivity. }
  destruct (step i sv) as [sv'|x sv'| | |]; try reflexivity; rewrite Hw; apply IH; reflexivity.
Qed.
Lemma wire_app is1 : forall is2 sv sv' k, run is1 sv = VOk sv' ->
  wire_run E net size fuel tty color sid (is1 ++ is2) sv k = wire_run E net size fuel tty color sid is2 sv' (wire_run E net size fuel tty color sid is1 sv k).
Proof.
  induction is1 as [|i is1 IH]; intros is2 sv sv' k H; cbn [app sv_run wire_run] in *; [injection H as <-; reflexivity|].
  destruct (step i sv) as [s|x s| | |]; try discriminate; apply IH; exact H.
Qed.
Lemma shut root nxt st is sv : run is (server_init root nxt st) = VOk sv -> closed E net sid (sv_trace sv) = true -> forall is',
  sk_sent (wire_run E net size fuel tty color sid (is ++ is') (server_init root nxt st) sock_init) = sk_sent (wire_run E net size fuel tty color sid is (server_init root nxt st) sock_init).
Proof.
  intros H Hc is'. rewrite (wire_app _ _ _ _ _ H), wire_shut; [reflexivity|].
  destruct (Nat.ltb_spec sid (sv_sid sv)) as [Hl|Hl].
  - destruct (told_stream _ _ _ (told_reach _ _ _ _ _ H) Hl) as (ps & heard & lost & _ & _ & _ & _ & _ & _ & H6). apply H6, Hc.
  - exfalso. pose proof (told_reach _ _ _ _ _ H) as Ht. unfold told in Ht. destruct (Nat.ltb_spec sid (sv_sid sv)); [lia|]. destruct Ht as (_ & _ & Ho & _).
    unfold closed in Hc. rewrite (own_closed _ [] Ho), andb_false_r in Hc. discriminate.
Qed.

(** One step. *)
Lemma one_step root nxt st is sv i sv' : run is (server_init root nxt st) = VOk sv -> stepped (step i sv) sv' -> sv_conns sv sid <> None ->
  closed E net sid (sv_trace sv') = false -> exists new, sv_trace sv' = sv_trace sv ++ new /\
  sk_sent (wire_run E net size fuel tty color sid (is ++ [i]) (server_init root nxt st) sock_init) =
    sk_sent (wire_run E net size fuel tty color sid is (server_init root nxt st) sock_init) ++ crlf (audible sid new) ++ concat (replies E net sid i sv).
Proof.
  intros H Hst Hc Hcl. rewrite (wire_app _ _ _ _ _ H). set (k := wire_run E net size fuel tty color sid is _ _).
  assert (Hnew : exists new, sv_trace sv' = sv_trace sv ++ new).
  { destruct (step_shape _ _ _ Hst) as [Ht _ _ _|? ? ? ? ? _ _ _ Ht _ _ _|? ? _ _ Ht _ _ _]; rewrite Ht; [exists []; rewrite app_nil_r|eexists|eexists]; reflexivity. }
  destruct Hnew as (new & Ht). exists new. split; [exact Ht|].
  assert (Hw : wire_run E net size fuel tty color sid [i] sv k = wire_step E net sid i sv sv' k) by (cbn [wire_run]; destruct Hst as [->|(x & ->)]; reflexivity).
  rewrite Hw. unfold wire_step. rewrite Ht, skip_app, replies_concat. assert (Hl : listens sid i sv = true) by (unfold listens; destruct (sv_conns sv sid); [reflexivity|contradiction]).
  rewrite Hl, deliver_gets. pose proof (told_reach _ _ _ _ _ H) as Htold. fold k in Htold. unfold told in Htold.
  destruct (sid <? sv_sid sv); [|destruct Htold as (_ & _ & _ & Hn); contradiction].
  destruct Htold as (a & b & rest & ps & He & _ & _ & _ & _ & Hlive & _ & _ & Hleft & _). rewrite (Hlive Hc), app_nil_r in He.
  rewrite Ht, closed_app in Hcl. apply orb_false_iff in Hcl as (Hcl1 & Hcl2). destruct (gets_open new (sv_trace sv) Hcl2) as (Hg & Hlf).
  assert (Hk : sk_left k = None). { rewrite Hleft. apply gets_open. rewrite He, closed_app in Hcl1. apply orb_false_iff in Hcl1. apply Hcl1. }
  rewrite Hk, Hg, Hlf. unfold send. cbn [sk_left sk_sent]. rewrite <- app_assoc. reflexivity.
Qed.
End Wire.
End Serve.

(** ** The stream is a telnet stream *)
Section Protocol.
Lemma hello_wire : hello = wire hello_items.
Proof. reflexivity. Qed.
Lemma wire_app_items a b : wire (a ++ b) = wire a ++ wire b.
Proof. apply flat_map_app. Qed.
Lemma data_app a b : data_of (a ++ b) = data_of a ++ data_of b.
Proof. apply flat_map_app. Qed.
Lemma text_items s : ~ In FF s -> wire (map IData s) = s /\ Forall item_ok (map IData s) /\ data_of (map IData s) = s /\ filter control (map IData s) = [].
Proof.
  induction s as [|c s IH]; intros H; [repeat split; constructor|]. destruct IH as (H1 & H2 & H3 & H4); [intros Hin; apply H; right; exact Hin|].
  cbn [map wire flat_map wire_item data_of filter control] in *. split; [|split; [constructor; [exact Logic.I|exact H2]|split; [cbn; f_equal; exact H3|exact H4]]].
  unfold doubled. destruct (Ascii.eqb_spec c FF) as [->|_]; [exfalso; apply H; left; reflexivity|]. cbn. f_equal. exact H1.
Qed.
Lemma crlf_ff s : ~ In FF s -> ~ In FF (crlf s).
Proof.
  intros H Hin. apply in_flat_map in Hin as (c & Hc & Hin). destruct (Ascii.eqb c "010"); cbn in Hin; [intuition discriminate|]. destruct Hin as [->|[]]. exact (H Hc).
Qed.
Definition plain_request (q : verb * ascii) : Prop := snd q <> "010"%char /\ snd q <> FF.
Lemma reply_wire q : plain_request q -> encode (reply q) = wire [reply_item q] /\ item_ok (reply_item q).
Proof.
  intros (H10 & Hff). split; [|exact Hff]. rewrite encode_plain; [reflexivity|]. unfold reply. cbn [In]. intros [H|[H|[H|[]]]]; [discriminate| |congruence].
  destruct (reply_verb q); discriminate.
Qed.
Lemma pieces_items ps : forall qs, ~ In FF (texts ps) -> replies_in ps = map (fun q => encode (reply q)) qs -> Forall plain_request qs ->
  exists items, flat_map piece_bytes ps = wire items /\ Forall item_ok items /\ data_of items = crlf (texts ps) /\ filter control items = map reply_item qs.
Proof.
  induction ps as [|p ps IH]; intros qs Hff Hr Hq.
  - destruct qs; [|discriminate]. exists []. repeat split; constructor.
  - destruct p as [s|b].
    + change (texts (Text s :: ps)) with (s ++ texts ps) in *. change (replies_in (Text s :: ps)) with (replies_in ps) in Hr.
      change (flat_map piece_bytes (Text s :: ps)) with (crlf s ++ flat_map piece_bytes ps). destruct (IH qs) as (items & H1 & H2 & H3 & H4); [intros H; apply Hff, in_or_app; right; exact H|exact Hr|exact Hq|].
      destruct (text_items (crlf s)) as (T1 & T2 & T3 & T4); [apply crlf_ff; intros H; apply Hff, in_or_app; left; exact H|].
      exists (map IData (crlf s) ++ items). rewrite wire_app_items, data_app, filter_app, T1, T3, T4, H1, H3, H4, crlf_app. repeat (split; [first [reflexivity|apply Forall_app; split; assumption]|]). reflexivity.
    + change (texts (Reply b :: ps)) with (texts ps) in *. change (replies_in (Reply b :: ps)) with (b :: replies_in ps) in Hr.
      change (flat_map piece_bytes (Reply b :: ps)) with (b ++ flat_map piece_bytes ps). destruct qs as [|q qs]; [discriminate|]. pose proof (f_equal (hd []) Hr) as Hb. cbn [map hd] in Hb. apply (f_equal (@tl str)) in Hr. cbn [map tl] in Hr. subst b. inversion Hq as [|q' qs' Hq1 Hq2 Heq]; subst.
      destruct (IH qs Hff Hr Hq2) as (items & H1 & H2 & H3 & H4). destruct (reply_wire q Hq1) as (R1 & R2). exists (reply_item q :: items).
      change (reply_item q :: items) with ([reply_item q] ++ items). rewrite wire_app_items, data_app, filter_app, R1, H1, H3, H4. split; [reflexivity|]. split; [constructor; assumption|]. split; reflexivity.
Qed.
Lemma requests_ok is : Forall item_ok is -> Forall (fun q => snd q <> FF) (requests is).
Proof.
  intros H. induction H as [|i is Hi H IH]; [constructor|]. unfold requests. cbn [flat_map]. fold (requests is). destruct i as [c|c|v o|p]; cbn [app]; try exact IH. destruct v; cbn [app]; try exact IH; constructor; assumption.
Qed.

Context (E : env) (net : nat -> list event -> bool) (size fuel : nat) (tty : bool) (color : list event -> bool * bool) (sid : nat).
Lemma since_app a : forall b, since sid a <> [] -> since sid (a ++ b) = since sid a ++ b.
Proof. induction a as [|e a IH]; intros b H; [contradiction|]. cbn [app since] in *. destruct (own sid [e]); [apply IH, H|reflexivity]. Qed.
Lemma since_head a : forall e t, since sid a = e :: t -> exists p, a = p ++ e :: t /\ own sid p = [].
Proof.
  induction a as [|x a IH]; intros e t H; [discriminate|]. cbn [since] in H. destruct (own sid [x]) eqn:Hx.
  - destruct (IH _ _ H) as (p & -> & Hp). exists (x :: p). split; [reflexivity|]. change (x :: p) with ([x] ++ p). rewrite own_app, Hx, Hp. reflexivity.
  - injection H as -> ->. exists []. split; reflexivity.
Qed.
Lemma telnet_stream root nxt st is sv cis : sv_run E net size fuel tty color is (server_init root nxt st) = VOk sv -> sid < sv_sid sv ->
  delivered E net size fuel tty color sid is (server_init root nxt st) = wire cis -> Forall item_ok cis -> (forall q, In q (requests cis) -> snd q <> "010"%char) ->
  ~ In FF (audible sid (tl (since sid (sv_trace sv)))) ->
  exists items heard lost answered waiting, sv_trace sv = heard ++ lost /\
    sk_sent (wire_run E net size fuel tty color sid is (server_init root nxt st) sock_init) = wire (hello_items ++ items) /\ Forall item_ok items /\
    client (data_of items) = audible sid (tl (since sid heard)) /\ requests cis = answered ++ waiting /\ filter control items = map reply_item answered /\
    (closed E net sid (sv_trace sv) = false -> sv_conns sv sid <> None -> lost = []).
Proof.
  intros Hr Hl Hd Hok H10 Hff. destruct (streams E net size fuel tty color sid root nxt st is sv Hr Hl) as (ps & heard & lost & Ht & Hs & Hx & Hrp & (s & ps' & ->) & Ho & _).
  destruct (flows_run E net size fuel tty color sid is _ [] [] [] (init_flows sid root nxt st)) as ((ks & more & Hf) & _). cbn [app] in Hf. rewrite Hd in Hf.
  unfold receive in Hf. cbn [d_tel dev_init] in Hf. change telnet_init with idle in Hf. rewrite (items_out cis Hok) in Hf. cbn [snd] in Hf.
  destruct (outputs (bytes_of (flat_map item_out cis)) (d_step dev_init)) as (st', ks'). cbn [snd] in Hf. injection Hf as _ Hf. rewrite sent_items in Hf.
  assert (Hsp : exists answered waiting, requests cis = answered ++ waiting /\ replied E net size fuel tty color sid is (server_init root nxt st) = map (fun q => encode (reply q)) answered).
  { revert Hf. generalize (replied E net size fuel tty color sid is (server_init root nxt st)). generalize (requests cis). clear. induction l as [|q qs IH]; intros rs Hf.
    - destruct rs; [|discriminate]. exists [], []. split; reflexivity.
    - destruct rs as [|r rs]; [exists [], (q :: qs); split; reflexivity|]. pose proof (f_equal (hd []) Hf) as Hb. cbn [map app hd] in Hb. apply (f_equal (@tl str)) in Hf. cbn [map app tl] in Hf.
      destruct (IH rs Hf) as (an & wa & -> & ->). exists (q :: an), wa. split; [reflexivity|]. cbn [map]. rewrite Hb. reflexivity. }
  destruct Hsp as (answered & waiting & Hq & Hrs).
  assert (Hpl : Forall plain_request answered).
  { apply Forall_forall. intros q Hin. assert (Hin' : In q (requests cis)) by (rewrite Hq; apply in_or_app; left; exact Hin). split; [exact (H10 q Hin')|].
    pose proof (requests_ok cis Hok) as Hro. rewrite Forall_forall in Hro. exact (Hro q Hin'). }
  assert (Hhd : exists t, since sid heard = EvOut sid hello :: t).
  { pose proof (begins E net size fuel tty color root nxt st is sv Hr sid) as (Hb & _). destruct (Hb Hl) as (evs & Hb' & _).
    destruct (since sid heard) as [|e t] eqn:He; [rewrite audible_nil in Hx; discriminate|]. destruct (since_head heard e t He) as (p & -> & Hp).
    rewrite Ht, !own_app, Hp in Hb'. change (e :: t) with ([e] ++ t) in Hb'. rewrite own_app in Hb'. exists t. f_equal.
    assert (Hne : own sid [e] <> []). { clear -He. revert He. induction (p ++ e :: t) as [|x l IH]; [discriminate|]. cbn [since]. destruct (own sid [x]) eqn:Hx; [exact IH|]. intros H. injection H as -> _. rewrite Hx. discriminate. }
    cbn [own filter] in Hne, Hb'. destruct (match e with EvOut i _ | EvCall i _ _ | EvHook i _ _ | EvInput i _ => Nat.eqb i sid | _ => false end); [|contradiction].
    cbn [app] in Hb'. injection Hb' as -> _. reflexivity. }
  destruct Hhd as (t & Hhd).
  assert (Htx : texts (Text s :: ps') = audible sid t).
  { rewrite Hhd in Hx. change (texts (Text (hello ++ s) :: ps')) with ((hello ++ s) ++ texts ps') in Hx. rewrite <- app_assoc in Hx. change (EvOut sid hello :: t) with ([EvOut sid hello] ++ t) in Hx.
    rewrite audible_app in Hx. unfold audible at 1 in Hx. cbn [flat_map] in Hx. rewrite Nat.eqb_refl, app_nil_r in Hx. apply app_inv_head in Hx. exact Hx. }
  assert (Hnf : ~ In FF (texts (Text s :: ps'))).
  { rewrite Htx. intros Hin. apply Hff. rewrite Ht, since_app by (rewrite Hhd; discriminate). rewrite Hhd. cbn [app tl]. rewrite audible_app. apply in_or_app. left. exact Hin. }
  rewrite Hrs in Hrp. change (replies_in (Text (hello ++ s) :: ps')) with (replies_in (Text s :: ps')) in Hrp.
  destruct (pieces_items (Text s :: ps') answered Hnf Hrp Hpl) as (items & I1 & I2 & I3 & I4). exists items, heard, lost, answered, waiting.
  split; [exact Ht|]. split.
  { rewrite Hs, wire_app_items, <- I1, <- hello_wire. change (flat_map piece_bytes (Text (hello ++ s) :: ps')) with (crlf (hello ++ s) ++ flat_map piece_bytes ps').
    rewrite crlf_app. change (crlf hello) with hello. rewrite <- app_assoc. reflexivity. }
  split; [exact I2|]. split; [rewrite I3, <- encode_crlf, client_encode by exact Hnf; rewrite Hhd; exact Htx|]. split; [exact Hq|]. split; [exact I4|]. intros Hc Hcn. exact (proj2 (Ho Hc) Hcn).
Qed.
End Protocol.
