(** * Proofs about sessions that lack the memory for some lines *)

From Verif Require Import Base SplitModel FromStringModel HistoryModel HistorySpec StorageModel MenuModel
  SessionModel SessionSpec AllocModel AllocSpec AllocProofs AllocFeedModel AllocFeedSpec.
Open Scope nat_scope.
Open Scope list_scope.

(** The second session, in terms of the first. *)
Definition rehist (n : nat) (h : history) : history :=
  mkHistory (h_max h) (h_buf h) (h_cur h) n (h_browse h) (h_oldest h).
Definition re (st : storage) (n : nat) (w : world) : world :=
  mkWorld (w_root w) (w_next w) st (w_sid w) (w_cur w) (rehist n (w_hist w)) (w_exit w) (w_trace w).

(** Related, and not browsing. *)
Definition R (d : nat) (w v : world) : Prop :=
  h_browse (w_hist w) = false /\ h_cur (w_hist w) = 0 /\
  exists st n, v = re st n w /\ h_cmds (w_hist w) = d + n.

Lemma R_same d w v : R d w v -> same_session d w v.
Proof.
  intros (_ & _ & st & n & -> & C). unfold same_session, alike. cbn.
  do 6 (split; [reflexivity|]). split; [auto|exact C].
Qed.

Definition hR (d : nat) (a b : hres) : Prop :=
  match a, b with
  | HOk w, HOk v => R d w v
  | HExc x w, HExc y v => x = y /\ R d w v
  | HUB, HUB | HFuel, HFuel => True
  | _, _ => False
  end.
Definition eR (d : nat) (a b : eres) : Prop :=
  match a, b with
  | EDone p w, EDone q v => p = q /\ R d w v
  | EExc x w, EExc y v => x = y /\ R d w v
  | EUB, EUB | EFuel, EFuel => True
  | _, _ => False
  end.
Definition fR (d : nat) := same_outcome (R d).

Section Congruence.
Context (E : env).

Lemma apply_op_re st n w o : apply_op (re st n w) o = re st n (apply_op w o).
Proof.
  destruct o; try reflexivity. cbn [apply_op]. change (w_next (re st n w)) with (w_next w).
  destruct (relabel (w_next w) c) as [c' m]. reflexivity.
Qed.

Lemma apply_ops_re st n os : forall w, apply_ops os (re st n w) = re st n (apply_ops os w).
Proof.
  unfold apply_ops. induction os as [|o os IH]; intro w; cbn [fold_left]; [reflexivity|].
  rewrite apply_op_re. apply IH.
Qed.

Lemma apply_op_hist w o : w_hist (apply_op w o) = w_hist w.
Proof. destruct o; try reflexivity. cbn [apply_op]. destruct (relabel (w_next w) c). reflexivity. Qed.

Lemma apply_ops_hist os : forall w, w_hist (apply_ops os w) = w_hist w.
Proof.
  unfold apply_ops. induction os as [|o os IH]; intro w; cbn [fold_left]; [reflexivity|].
  rewrite IH. apply apply_op_hist.
Qed.

Lemma R_log d w v e : R d w v -> R d (log e w) (log e v).
Proof.
  intros (B & C & st & n & -> & N). split; [exact B|]. split; [exact C|]. exists st, n.
  split; [reflexivity|exact N].
Qed.

Lemma R_sid d w v : R d w v -> w_sid v = w_sid w.
Proof. intros (_ & _ & st & n & -> & _). reflexivity. Qed.
Lemma R_trace d w v : R d w v -> w_trace v = w_trace w.
Proof. intros (_ & _ & st & n & -> & _). reflexivity. Qed.
Lemma R_root d w v : R d w v -> w_root v = w_root w.
Proof. intros (_ & _ & st & n & -> & _). reflexivity. Qed.
Lemma R_cur d w v : R d w v -> w_cur v = w_cur w.
Proof. intros (_ & _ & st & n & -> & _). reflexivity. Qed.

Lemma R_out d w v s : R d w v -> R d (out s w) (out s v).
Proof. intro H. unfold out. rewrite (R_sid d w v H). apply R_log, H. Qed.

Lemma R_ops d w v os : R d w v -> R d (apply_ops os w) (apply_ops os v).
Proof.
  intros (B & C & st & n & -> & N). unfold R. rewrite apply_ops_hist, apply_ops_re.
  split; [exact B|]. split; [exact C|]. exists st, n. split; [reflexivity|exact N].
Qed.

Lemma R_set_cur d w v i : R d w v -> R d (set_cur i w) (set_cur i v).
Proof.
  intros (B & C & st & n & -> & N). split; [exact B|]. split; [exact C|]. exists st, n.
  split; [reflexivity|exact N].
Qed.

Lemma run_hook_R d k a w v : R d w v -> hR d (run_hook E k a w) (run_hook E k a v).
Proof.
  intro H. unfold run_hook. rewrite (R_sid d w v H).
  pose proof (R_log d w v (EvHook (w_sid w) k a) H) as L.
  rewrite (R_sid d _ _ L), (R_trace d _ _ L).
  set (r := e_hook E _ _ _ _). pose proof (R_ops d _ _ (ur_ops r) L) as O.
  destruct (ur_end r); cbn [hR]; [exact O|]. split; [reflexivity|exact O].
Qed.

Lemma call_user_R d n a w v : R d w v ->
  fst (call_user E n a v) = fst (call_user E n a w) /\ R d (snd (call_user E n a w)) (snd (call_user E n a v)).
Proof.
  intro H. unfold call_user. rewrite (R_sid d w v H).
  pose proof (R_log d w v (EvCall (w_sid w) n a) H) as L.
  rewrite (R_sid d _ _ L), (R_trace d _ _ L). cbn [fst snd]. split; [reflexivity|]. apply R_ops, L.
Qed.

Lemma e_bind_R d a b f g : eR d a b -> (forall w v, R d w v -> eR d (f w) (g v)) ->
  eR d (e_bind a f) (e_bind b g).
Proof.
  intros H F. destruct a as [p w|x w| |], b as [q v|y v| |]; cbn [eR] in H; try contradiction; cbn [e_bind].
  - destruct H as [<- H]. destruct p; [split; [reflexivity|exact H]|apply F, H].
  - exact H.
  - exact I.
  - exact I.
Qed.

Lemma h_bind_R d a b f g : hR d a b -> (forall w v, R d w v -> hR d (f w) (g v)) ->
  hR d (h_bind a f) (h_bind b g).
Proof.
  intros H F. destruct a, b; cbn [hR] in H; try contradiction; cbn [h_bind].
  - apply F, H.
  - exact H.
  - exact I.
  - exact I.
Qed.

Section Exec.
Context (bi : hid -> list value -> world -> hres) (d : nat)
        (BI : forall h a w v, R d w v -> hR d (bi h a w) (bi h a v)).

Lemma run_fn_R h a w v : R d w v -> eR d (run_fn E bi h a w) (run_fn E bi h a v).
Proof.
  intro H.
  assert (G : eR d (match bi h a w with HOk w' => EDone true w' | HExc (XBadCast _) w' => EDone false w'
                    | HExc x w' => EExc x w' | HUB => EUB | HFuel => EFuel end)
                   (match bi h a v with HOk w' => EDone true w' | HExc (XBadCast _) w' => EDone false w'
                    | HExc x w' => EExc x w' | HUB => EUB | HFuel => EFuel end)).
  { pose proof (BI h a w v H) as B. destruct (bi h a w) as [w'|x w'| |], (bi h a v) as [v'|y v'| |];
      cbn [hR] in B; try contradiction.
    - split; [reflexivity|exact B].
    - destruct B as [<- B]. destruct x; (split; [reflexivity|exact B]).
    - exact I.
    - exact I. }
  destruct h as [u| | | |]; try exact G. cbn [run_fn].
  destruct (call_user_R d u a w v H) as [F S1].
  destruct (call_user E u a w) as [r w'], (call_user E u a v) as [r' v']. cbn [fst snd] in *. subst r'.
  destruct (ur_end r) as [|[x|x|]]; try (split; [reflexivity|exact S1]).
  destruct (existsb is_tree_op (ur_ops r)); [exact I|split; [reflexivity|exact S1]].
Qed.

Lemma run_free_R h a w v : R d w v -> eR d (run_free E h a w) (run_free E h a v).
Proof.
  intro H. destruct h as [u| | | |]; try exact I. cbn [run_free].
  destruct (call_user_R d u [VList a] w v H) as [F S1].
  destruct (call_user E u [VList a] w) as [r w'], (call_user E u [VList a] v) as [r' v']. cbn [fst snd] in *. subst r'.
  destruct (ur_end r); (split; [reflexivity|exact S1]).
Qed.

Lemma done_R b w v : R d w v -> eR d (EDone b w) (EDone b v).
Proof. intro H. split; [reflexivity|exact H]. Qed.

Lemma exec_leaf_R c toks w v : R d w v -> eR d (exec_leaf E bi c toks w) (exec_leaf E bi c toks v).
Proof.
  intro H. destruct c as [i name en ? pars ? h|i name en ? ? h|]; cbn [exec_leaf]; [| |apply done_R, H].
  - destruct (negb en); [apply done_R, H|].
    destruct (negb _); [apply done_R, H|]. destruct toks as [|t args]; [exact I|].
    destruct (str_eqb name t); [|apply done_R, H].
    destruct (convert_all E pars args); [apply run_fn_R, H|apply done_R, H|exact I].
  - destruct (negb en); [apply done_R, H|]. destruct toks as [|t args]; [exact I|].
    destruct (str_eqb name t); [apply run_free_R, H|apply done_R, H].
Qed.

Lemma try_all_R f l : (forall k w v, R d w v -> eR d (f k w) (f k v)) ->
  forall w v, R d w v -> eR d (try_all f l w) (try_all f l v).
Proof.
  intro F. induction l as [|k l IH]; intros w v H; cbn [try_all]; [apply done_R, H|].
  apply e_bind_R; [apply F, H|exact IH].
Qed.

Lemma handle_R toks : forall up ctx w v, R d w v -> eR d (handle E bi toks up ctx w) (handle E bi toks up ctx v).
Proof.
  induction toks as [|t rest IH]; intros up ctx w v H.
  - destruct ctx as [|[| |i name en ? ? kids] anc]; cbn [handle]; try (apply done_R, H).
    destruct (negb en); [apply done_R, H|exact I].
  - destruct ctx as [|[| |i name en ? ? kids] anc]; cbn [handle]; try (apply done_R, H).
    destruct (negb en); [apply done_R, H|].
    destruct (str_eqb name t || up && str_eqb (lit "..") t); [|apply done_R, H].
    destruct rest as [|t' rest']; [apply done_R, R_set_cur, H|].
    apply e_bind_R.
    + apply try_all_R; [|exact H]. intros k w1 v1 H1. destruct k; [apply exec_leaf_R, H1|apply exec_leaf_R, H1|apply IH, H1].
    + intros w1 v1 H1. destruct anc; [apply done_R, H1|apply IH, H1].
Qed.

Lemma scan_R toks ctx w v : R d w v -> eR d (scan E bi toks ctx w) (scan E bi toks ctx v).
Proof.
  intro H. destruct ctx as [|m anc]; cbn [scan]; [apply done_R, H|].
  destruct (negb (cmd_en m)); [apply done_R, H|]. apply e_bind_R.
  - apply try_all_R; [|exact H]. intros k w1 v1 H1. unfold exec.
    destruct k; [apply exec_leaf_R, H1|apply exec_leaf_R, H1|apply handle_R, H1].
  - intros w1 v1 H1. destruct anc; [apply done_R, H1|apply handle_R, H1].
Qed.
End Exec.

Lemma show_loop_re n h : forall m, show_loop (rehist n h) m = show_loop h m.
Proof. induction m as [|m IH]; [reflexivity|]. cbn [show_loop]. rewrite IH. reflexivity. Qed.
Lemma show_re n h : show (rehist n h) = show h.
Proof. unfold show. rewrite show_loop_re. reflexivity. Qed.

Lemma session_exit_R d w v : R d w v -> hR d (session_exit E w) (session_exit E v).
Proof.
  intro H. unfold session_exit. apply h_bind_R.
  - destruct (e_has E KSesExit); [apply run_hook_R, H|split; [reflexivity|exact H]].
  - intros w1 v1 H1. apply h_bind_R.
    + destruct (e_has E KCliExit); [apply run_hook_R, H1|exact H1].
    + intros w2 v2 (B & C & st & n & -> & N). unfold get_commands. cbn [re w_hist rehist h_browse]. rewrite B.
      split; [exact B|]. split; [exact C|]. do 2 eexists. split; [|exact N]. reflexivity.
Qed.

Lemma builtin_R d rec : (forall l w v, R d w v -> fR d (rec l w) (rec l v)) ->
  forall h a w v, R d w v -> hR d (builtin E rec h a w) (builtin E rec h a v).
Proof.
  intros F h a w v H. destruct h; cbn [builtin]; try exact I.
  - unfold help_text. rewrite (R_cur d w v H), (R_root d w v H).
    destruct (locate (w_cur w) [] (w_root w)); [apply R_out, H|exact I].
  - apply session_exit_R, H.
  - assert (S1 : show (w_hist v) = show (w_hist w)).
    { destruct H as (_ & _ & st & n & -> & _). apply show_re. }
    rewrite S1. destruct (show (w_hist w)); [apply R_out, H|split; [reflexivity|exact H]].
  - destruct a as [|[n| | | | | |] [|]]; try exact I.
    destruct H as (B & C & st & m & -> & N). unfold forget_latest. cbn [re w_hist rehist h_buf].
    destruct (h_buf (w_hist w)) as [|x b]; [exact I|].
    set (h' := with_buf (w_hist w) b).
    change (at_id (with_buf (rehist m (w_hist w)) b) n) with (at_id h' n).
    assert (H1 : R d (set_hist h' w) (set_hist (with_buf (rehist m (w_hist w)) b) (re st m w))).
    { split; [exact B|]. split; [exact C|]. exists st, m. split; [reflexivity|exact N]. }
    destruct (at_id h' n) as [line| |]; [|split; [reflexivity|exact H1]|exact I].
    pose proof (F line _ _ H1) as G.
    destruct (rec line (set_hist h' w)), (rec line (set_hist (with_buf (rehist m (w_hist w)) b) (re st m w)));
      cbn [fR same_outcome] in G; try contradiction; exact G.
Qed.

Lemma wrong_R d line w v : R d w v -> hR d (wrong_command E line w) (wrong_command E line v).
Proof. intro H. unfold wrong_command. destruct (e_has E KWrong); [apply run_hook_R, H|apply R_out, H]. Qed.
Lemma std_R d line what w v : R d w v -> hR d (std_exception E line what w) (std_exception E line what v).
Proof. intro H. unfold std_exception. destruct (e_has E KExcept); [apply run_hook_R, H|apply R_out, H]. Qed.

Lemma dispatch_R d bi toks line w v :
  (forall h a w v, R d w v -> hR d (bi h a w) (bi h a v)) -> R d w v ->
  eR d (dispatch E bi toks line w) (dispatch E bi toks line v).
Proof.
  intros BI H. unfold dispatch. apply e_bind_R; [apply scan_R; assumption|].
  intros w1 v1 H1. rewrite (R_cur d _ _ H1), (R_root d _ _ H1).
  destruct (locate (w_cur w1) [] (w_root w1)) as [ctx|]; [|exact I].
  apply e_bind_R; [apply scan_R; [intros; exact I|exact H1]|].
  intros w2 v2 H2. pose proof (wrong_R d line w2 v2 H2) as G.
  destruct (wrong_command E line w2), (wrong_command E line v2); cbn [hR] in G; try contradiction; try exact I.
  - split; [reflexivity|exact G].
  - exact G.
Qed.

Lemma new_command_plain h s : h_browse h = false -> exists h', new_command h s = Some h' /\
  h_browse h' = false /\ h_cur h' = 0 /\ h_cmds h' = S (h_cmds h).
Proof.
  intro B. unfold new_command. cbn [h_browse h_buf]. rewrite B.
  destruct (h_buf h) as [|y b]; [|destruct (str_eqb y s)]; (eexists; split; [reflexivity|]);
    cbn [h_browse h_cur h_cmds]; (split; [reflexivity|]); rewrite ?HistoryProofs.insert_cur, ?HistoryProofs.insert_cmds;
    split; reflexivity.
Qed.

Lemma feed_R d fuel : forall line w v, R d w v -> fR d (feed E fuel line w) (feed E fuel line v).
Proof.
  induction fuel as [|fuel IH]; intros line w v H; cbn [feed]; [exact I|].
  unfold feed_body. destruct (split line) as [[|t toks]|]; [exact H| |exact I].
  destruct H as (B & C & st & n & -> & N).
  destruct (new_command_plain (w_hist w) line B) as (h1 & E1 & B1 & C1 & N1).
  destruct (new_command_plain (rehist n (w_hist w)) line B) as (h2 & E2 & B2 & C2 & N2).
  cbn [re w_hist]. rewrite E1, E2.
  assert (H : R d (set_hist h1 w) (set_hist h2 (re st n w))).
  { split; [exact B1|]. split; [exact C1|]. exists st, (S n). cbn [rehist h_cmds] in N2. split.
    - destruct (alike_new (w_hist w) (rehist n (w_hist w)) line h1 ltac:(unfold alike, rehist; cbn; auto) E1)
        as (g & G & (A1 & A2 & A3 & A4 & A5)).
      rewrite E2 in G. injection G as <-. unfold set_hist, re. cbn. f_equal.
      unfold rehist. rewrite A1, A2, A3, A4, A5, <- N2. destruct h2. reflexivity.
    - cbn [set_hist w_hist]. lia. }
  pose proof (dispatch_R d (builtin E (feed E fuel)) (t :: toks) line _ _ (builtin_R d _ IH) H) as G.
  change (mkWorld (w_root w) (w_next w) st (w_sid w) (w_cur w) (rehist n (w_hist w)) (w_exit w) (w_trace w))
    with (re st n w).
  destruct (dispatch E (builtin E (feed E fuel)) (t :: toks) line (set_hist h1 w)) as [p w'|x w'| |],
           (dispatch E (builtin E (feed E fuel)) (t :: toks) line (set_hist h2 (re st n w))) as [q v'|y v'| |];
    cbn [eR] in G; try contradiction; try exact I.
  - exact (proj2 G).
  - destruct G as [<- G].
    assert (S1 : forall what, fR d (hres_fres (std_exception E line what w')) (hres_fres (std_exception E line what v'))).
    { intro what. pose proof (std_R d line what w' v' G) as P.
      destruct (std_exception E line what w'), (std_exception E line what v'); cbn [hR] in P; try contradiction; exact P. }
    destruct x; [apply S1|apply S1|apply R_out, G].
Qed.

(** ** Losing lines *)
Lemma lost_R d w v line ok h : R d w v -> new_command_m ok (w_hist w) line = AThrew h ->
  ok = false /\ R (S d) (set_hist h w) v.
Proof.
  intros (B & C & st & n & -> & N) T.
  destruct (new_command_either ok (w_hist w) line) as [E1|[O E1]]; rewrite E1 in T.
  - rewrite new_command_ok in T. destruct (new_command (w_hist w) line); discriminate.
  - split; [exact O|]. injection T as <-. split; [exact B|]. split; [reflexivity|]. exists st, n. split.
    + unfold re, set_hist, restarted, rehist. cbn. rewrite C. reflexivity.
    + cbn. rewrite N. reflexivity.
Qed.

Lemma feeds_m_R fuel lines : forall d w v, R d w v ->
  exists kept n, without lines kept n /\
    match feeds_m E fuel lines w, feeds E fuel kept v with
    | FOk w', FOk v' => R (n + d) w' v'
    | a, b => exists m, m <= n + d /\ fR m a b
    end.
Proof.
  induction lines as [|[l [ok ok']] ls IH]; intros d w v H.
  - exists [], 0. split; [constructor|]. exact H.
  - cbn [feeds_m]. unfold feed_m.
    assert (G : exists kept n, without ((l, (ok, ok')) :: ls) kept n /\
       match match feed E fuel l w with FOk w' => feeds_m E fuel ls w' | _ => feed E fuel l w end, feeds E fuel kept v with
       | FOk w', FOk v' => R (n + d) w' v'
       | a, b => exists m, m <= n + d /\ fR m a b
       end).
    { pose proof (feed_R d fuel l w v H) as F.
      destruct (feed E fuel l w) as [w1|x w1| |] eqn:Ew, (feed E fuel l v) as [v1|y v1| |] eqn:Ev;
        cbn [fR same_outcome] in F; try contradiction.
      - destruct (IH d w1 v1 F) as (kept & n & K & G). exists (l :: kept), n. split; [constructor; exact K|].
        cbn [feeds]. rewrite Ev. exact G.
      - destruct (IH d w v H) as (kept & n & K & _). exists (l :: kept), n. split; [constructor; exact K|].
        cbn [feeds]. rewrite Ev. exists d. split; [lia|exact F].
      - destruct (IH d w v H) as (kept & n & K & _). exists (l :: kept), n. split; [constructor; exact K|].
        cbn [feeds]. rewrite Ev. exists d. split; [lia|exact I].
      - destruct (IH d w v H) as (kept & n & K & _). exists (l :: kept), n. split; [constructor; exact K|].
        cbn [feeds]. rewrite Ev. exists d. split; [lia|exact I]. }
    destruct ok; cbn [negb].
    2: { destruct (IH d w v H) as (kept & n & K & F). exists kept, n. split; [|exact F].
         apply without_words; [reflexivity|exact K]. }
    destruct (split l) as [[|t toks]|]; [exact G| |exact G].
    destruct (new_command_m ok' (w_hist w) l) as [h|h|] eqn:T; [exact G| |].
    + destruct (lost_R d w v l ok' h H T) as [-> H1].
      destruct (IH (S d) _ _ H1) as (kept & n & K & F). exists kept, (S n).
      split; [apply without_record; [reflexivity|exact K]|].
      replace (S n + d) with (n + S d) by lia. exact F.
    + exfalso. destruct (new_command_either ok' (w_hist w) l) as [E1|[_ E1]]; rewrite E1 in T; [|discriminate].
      rewrite new_command_ok in T. destruct (new_command_plain (w_hist w) l (proj1 H)) as (h1 & N1 & _).
      rewrite N1 in T. discriminate.
Qed.
End Congruence.

Lemma same_weaken (A B : world -> world -> Prop) a b : (forall w v, A w v -> B w v) ->
  same_outcome A a b -> same_outcome B a b.
Proof. intros H. destruct a, b; cbn; auto. intros [-> G]. auto. Qed.

Lemma lines_lost E fuel lines w : h_browse (w_hist w) = false -> h_cur (w_hist w) = 0 ->
  exists kept n, without lines kept n /\
    same_outcome (fun w' v' => exists m, m <= n /\ same_session m w' v') (feeds_m E fuel lines w) (feeds E fuel kept w).
Proof.
  intros B C.
  assert (H : R 0 w w).
  { split; [exact B|]. split; [exact C|]. exists (w_store w), (h_cmds (w_hist w)). split; [|reflexivity].
    unfold re, rehist. destruct w as [? ? ? ? ? [] ? ?]. reflexivity. }
  destruct (feeds_m_R E fuel lines 0 w w H) as (kept & n & K & G). exists kept, n. split; [exact K|].
  rewrite Nat.add_0_r in G.
  destruct (feeds_m E fuel lines w) as [w'|x w'| |], (feeds E fuel kept w) as [v'|y v'| |];
    cbn [same_outcome].
  1: { exists n. split; [lia|apply R_same, G]. }
  all: destruct G as (m & M & G); cbn [fR same_outcome] in G; try contradiction.
  - destruct G as [-> G]. split; [reflexivity|]. exists m. split; [exact M|apply R_same, G].
  - exact I.
  - exact I.
Qed.

Lemma lines_lost_ok E fuel lines w w' : h_browse (w_hist w) = false -> h_cur (w_hist w) = 0 ->
  feeds_m E fuel lines w = FOk w' ->
  exists kept n v', without lines kept n /\ feeds E fuel kept w = FOk v' /\ same_session n w' v'.
Proof.
  intros B C F.
  assert (H : R 0 w w).
  { split; [exact B|]. split; [exact C|]. exists (w_store w), (h_cmds (w_hist w)). split; [|reflexivity].
    unfold re, rehist. destruct w as [? ? ? ? ? [] ? ?]. reflexivity. }
  destruct (feeds_m_R E fuel lines 0 w w H) as (kept & n & K & G). rewrite F, Nat.add_0_r in G.
  destruct (feeds E fuel kept w) as [v'|y v'| |] eqn:Ev; try (destruct G as (m & _ & []); fail).
  exists kept, n, v'. split; [exact K|]. split; [exact Ev|apply R_same, G].
Qed.

Lemma with_memory E fuel lines : (forall p, In p lines -> snd p = (true, true)) ->
  forall w, feeds_m E (S fuel) lines w = feeds E (S fuel) (map fst lines) w.
Proof.
  intros A. induction lines as [|[l [ok ok']] ls IH]; intro w; [reflexivity|].
  pose proof (A _ (or_introl eq_refl)) as P. cbn [snd] in P. injection P as -> ->.
  assert (A' : forall p, In p ls -> snd p = (true, true)) by (intros p P; apply A; right; exact P).
  specialize (IH A'). cbn [feeds_m map fst feeds]. unfold feed_m. cbn [negb].
  assert (G : match feed E (S fuel) l w with FOk w' => feeds_m E (S fuel) ls w' | _ => feed E (S fuel) l w end =
              match feed E (S fuel) l w with FOk w' => feeds E (S fuel) (map fst ls) w' | r => r end).
  { destruct (feed E (S fuel) l w); [apply IH|reflexivity|reflexivity|reflexivity]. }
  destruct (split l) as [[|t toks]|] eqn:Sp; [exact G| |exact G].
  rewrite new_command_ok. destruct (new_command (w_hist w) l) as [h|] eqn:N; [exact G|].
  cbn [feed]. unfold feed_body. rewrite Sp, N. reflexivity.
Qed.

Lemma feed_throws E ok ok' fuel line w w' : feed_m E ok ok' fuel line w = MThrew w' ->
  w' = w \/ exists h', w' = set_hist h' w /\ view h' = view (w_hist w) /\
    committed h' = committed (w_hist w) /\ h_cmds h' = S (h_cmds (w_hist w)).
Proof.
  unfold feed_m. destruct ok; cbn [negb]; [|intro H; injection H as <-; left; reflexivity].
  destruct (split line) as [[|t toks]|]; [discriminate| |discriminate].
  destruct (new_command_either ok' (w_hist w) line) as [->|[_ ->]].
  - rewrite new_command_ok. destruct (new_command (w_hist w) line); discriminate.
  - intro H. injection H as <-. right. eexists. split; [reflexivity|]. repeat split.
Qed.

Lemma not_browsing size h : size >= 1 -> reachable_m size h -> h_browse h = false -> h_cur h = 0.
Proof. intros S1 H B. exact (HistoryProofs.inv_insert h (proj1 (reachable_m_inv size h S1 H)) B). Qed.
