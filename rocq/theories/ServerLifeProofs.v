(** * Proofs: the end of a telnet server *)

From Verif Require Import Base FromStringModel HistoryModel StorageModel TerminalModel MenuModel SessionModel ProcessorModel TelnetModel ServerModel ServerSpec ServerProofs
  AcceptSpec AcceptProofs ServerLifeModel ServerLifeSpec.
Open Scope nat_scope.
Open Scope list_scope.

Section Life.
Context (E : env) (net : nat -> list event -> bool) (size fuel : nat) (tty : bool) (color : list event -> bool * bool).
Notation step := (sv_step E net size fuel tty color).
Notation run := (sv_run E net size fuel tty color).
Notation lrun := (l_run E net size fuel tty color).

Lemma l_run_app a : forall b al sv, lrun (a ++ b) al sv = match lrun a al sv with LOk al' sv' => lrun b al' sv' | r => r end.
Proof. induction a as [|i a IH]; intros b al sv; [reflexivity|]. cbn [app l_run]. destruct (l_step _ _ _ _ _ _ i al sv); try reflexivity. apply IH. Qed.
(** While the server lives, it is the server of ServerModel.v. *)
Lemma l_run_alive is : forall sv, lrun (map LIn is) true sv = of_vres true (run is sv).
Proof.
  induction is as [|i is IH]; intros sv; [reflexivity|]. cbn [map l_run sv_run].
  assert (H : l_step E net size fuel tty color (LIn i) true sv = of_vres true (step i sv)) by (destruct i, (sv_queue sv) as [|[]]; reflexivity).
  rewrite H. destruct (step i sv); cbn [of_vres]; try reflexivity; apply IH.
Qed.

Context (Hent : enter_returns E).
(** Once destroyed, one handler of an accept is in the queue until it runs. *)
Definition at_most (m : nat) (sv : server) : Prop := exists q0 b q1, sv_queue sv = q0 ++ TkAccept b :: q1 /\ length q0 <= m.
Definition ran (i : linput) : nat := if is_run i then 1 else 0.

Lemma queue_step i sv : match i with IRun => False | _ => True end ->
  match step i sv with VOk sv' | VExc _ sv' => exists q, sv_queue sv' = sv_queue sv ++ q | _ => True end.
Proof.
  destruct i as [|ok|sid r]; [intros []| |]; intros _; cbn [sv_step].
  - destruct (sv_accepting sv); cbn [sv_queue]; [exists [TkAccept ok]|exists []; rewrite app_nil_r]; reflexivity.
  - destruct (sv_conns sv sid) as [c|]; [destruct (c_reading c)|]; cbn [set_conns sv_queue]; [exists [TkRead sid r]; reflexivity| |]; exists []; rewrite app_nil_r; reflexivity.
Qed.
Lemma doom_step i m sv : at_most m sv -> match l_step E net size fuel tty color i false sv with
  | LOk al sv' => al = false /\ ran i <= m /\ at_most (m - ran i) sv'
  | _ => True end.
Proof.
  intros (q0 & b & q1 & Hq & Hm). destruct i as [i|].
  2:{ cbn [l_step ran is_run]. split; [reflexivity|]. split; [lia|]. exists q0, b, q1. split; [exact Hq|lia]. }
  destruct i as [|ok|sid r].
  - cbn [l_step]. rewrite Hq. destruct q0 as [|t q0]; [exact Logic.I|].
    assert (Ht : sv_queue sv = t :: q0 ++ TkAccept b :: q1) by exact Hq.
    assert (Hf : match step IRun sv with VOk sv' | VExc _ sv' => exists q', sv_queue sv' = (q0 ++ TkAccept b :: q1) ++ q' | _ => True end).
    { pose proof (fifo_step E net size fuel tty color Hent sv _ _ Ht) as H. destruct (step IRun sv); try exact Logic.I; destruct H as (q' & H & _); eauto. }
    cbn [app]. destruct t as [s k|s r|b']; [| |exact Logic.I];
      (destruct (step IRun sv) as [s'|x s'| | |]; cbn [of_vres]; try exact Logic.I; destruct Hf as (q' & Hf); cbn in Hm |- *;
       (split; [reflexivity|]); (split; [lia|]); exists q0, b, (q1 ++ q'); rewrite Hf, <- app_assoc; (split; [reflexivity|lia])).
  - pose proof (queue_step (IConnect ok) sv Logic.I) as H.
    assert (Hl : l_step E net size fuel tty color (LIn (IConnect ok)) false sv = of_vres false (step (IConnect ok) sv)) by (destruct (sv_queue sv) as [|[]]; reflexivity).
    rewrite Hl. destruct (step (IConnect ok) sv); cbn [of_vres]; try exact Logic.I; destruct H as (q & H); cbn; (split; [reflexivity|]); (split; [lia|]);
      exists q0, b, (q1 ++ q); rewrite H, Hq, <- app_assoc; (split; [reflexivity|lia]).
  - pose proof (queue_step (IRead sid r) sv Logic.I) as H.
    assert (Hl : l_step E net size fuel tty color (LIn (IRead sid r)) false sv = of_vres false (step (IRead sid r) sv)) by (destruct (sv_queue sv) as [|[]]; reflexivity).
    rewrite Hl. destruct (step (IRead sid r) sv); cbn [of_vres]; try exact Logic.I; destruct H as (q & H); cbn; (split; [reflexivity|]); (split; [lia|]);
      exists q0, b, (q1 ++ q); rewrite H, Hq, <- app_assoc; (split; [reflexivity|lia]).
Qed.
Lemma doom_run is : forall m sv al sv', at_most m sv -> lrun is false sv = LOk al sv' -> length (filter is_run is) <= m.
Proof.
  induction is as [|i is IH]; intros m sv al sv' H Hr; cbn [filter length]; [lia|]. cbn [l_run] in Hr. pose proof (doom_step i m sv H) as Hs.
  destruct (l_step _ _ _ _ _ _ i false sv) as [al1 sv1| |]; try discriminate. destruct Hs as (-> & Hm & H1). specialize (IH _ _ _ _ H1 Hr).
  unfold ran in *. destruct (is_run i); cbn [length]; lia.
Qed.
Lemma doom root nxt st is sv is' al sv' : run is (server_init root nxt st) = VOk sv ->
  lrun (LDestroy :: is') true sv = LOk al sv' -> length (filter is_run is') <= length (sv_queue sv).
Proof.
  intros Hr Hl. pose proof (accepting E net size fuel tty color Hent root nxt st is sv Hr) as Ha. cbn [l_run l_step] in Hl.
  refine (doom_run is' _ _ al sv' _ Hl). unfold at_most, l_destroy. cbn [sv_queue]. destruct (sv_accepting sv).
  - exists (sv_queue sv), false, []. split; [reflexivity|lia].
  - rewrite app_nil_r. clear Hr Hl. induction (sv_queue sv) as [|t q IH]; [discriminate|]. destruct t as [s k|s r|b].
    + destruct IH as (q0 & b & q1 & -> & Hl); [exact Ha|]. exists (TkKey s k :: q0), b, q1. split; [reflexivity|cbn; lia].
    + destruct IH as (q0 & b & q1 & -> & Hl); [exact Ha|]. exists (TkRead s r :: q0), b, q1. split; [reflexivity|cbn; lia].
    + exists [], b, q. split; [reflexivity|cbn; lia].
Qed.
End Life.

(** ** Sessions of a destroyed server *)
Section Sessions.
Context (E : env) (net : nat -> list event -> bool) (size fuel : nat) (tty : bool) (color : list event -> bool * bool).
Notation step := (sv_step E net size fuel tty color).
Notation run := (sv_run E net size fuel tty color).
Notation lrun := (l_run E net size fuel tty color).
Definition twin (a b : server) : Prop := exists rt nx st tr cs sd q0 q1 acc,
  a = mkServer rt nx st tr cs sd (q0 ++ q1) acc /\ b = mkServer rt nx st tr cs sd (q0 ++ TkAccept false :: q1) false.
Lemma twin_step i a b : twin a b -> (forall ok, i <> IConnect ok) -> forall al b', l_step E net size fuel tty color (LIn i) false b = LOk al b' ->
  al = false /\ exists a', (step i a = VOk a' \/ exists x, step i a = VExc x a') /\ twin a' b'.
Proof.
  intros (rt & nx & st & tr & cs & sd & q0 & q1 & acc & -> & ->) Hi al b' Hs. destruct i as [|ok|s r]; [|destruct (Hi ok); reflexivity|].
  - destruct q0 as [|t q0]; [discriminate|]. destruct t as [s k|s r|b]; [| |discriminate].
    + cbn [l_step app sv_queue sv_step run_task set_conns sv_conns sv_trace sv_root sv_next sv_store sv_sid sv_accepting] in Hs.
      cbn [app sv_queue sv_step run_task set_conns sv_conns sv_trace sv_root sv_next sv_store sv_sid sv_accepting].
      destruct (cs s) as [c|]; [|discriminate]. destruct (color tr) as [c1 c2]. unfold proc_of in *. cbn [sv_root sv_next sv_store sv_trace] in *.
      destruct (press _ _ _ _ _) as [p|x p| |]; cbn [of_vres] in Hs; try discriminate; injection Hs as <- <-; (split; [reflexivity|]);
        (eexists; split; [first [left; reflexivity|right; eexists; reflexivity]|]); unfold after_key, set_conns; cbn [sv_queue sv_conns sv_sid sv_accepting];
        rewrite <- ?app_assoc; cbn [app]; do 6 eexists; exists q0; eexists; eexists; (split; reflexivity).
    + cbn [l_step app sv_queue sv_step run_task set_conns sv_conns sv_trace sv_root sv_next sv_store sv_sid sv_accepting] in Hs.
      cbn [app sv_queue sv_step run_task set_conns sv_conns sv_trace sv_root sv_next sv_store sv_sid sv_accepting].
      destruct (cs s) as [c|]; [|discriminate]. cbn [of_vres] in Hs. injection Hs as <- <-. split; [reflexivity|]. eexists. split; [left; reflexivity|].
      unfold run_read, set_conns. cbn [sv_trace sv_queue sv_conns]. destruct (closed E net s tr); [|destruct r; [destruct (receive chunk (c_dev c)) as (d, (ks, o))| |]];
        unfold set_conns; cbn [sv_queue sv_conns sv_sid sv_accepting sv_root sv_next sv_store sv_trace];
        rewrite <- ?app_assoc; cbn [app]; do 6 eexists; exists q0; eexists; eexists; (split; reflexivity).
  - assert (Hl : l_step E net size fuel tty color (LIn (IRead s r)) false (mkServer rt nx st tr cs sd (q0 ++ TkAccept false :: q1) false) =
      of_vres false (step (IRead s r) (mkServer rt nx st tr cs sd (q0 ++ TkAccept false :: q1) false))) by (cbn [l_step sv_queue]; destruct (q0 ++ _) as [|[]]; reflexivity).
    rewrite Hl in Hs. cbn [sv_step sv_conns] in *. destruct (cs s) as [c|]; [destruct (c_reading c)|]; cbn [of_vres] in Hs; injection Hs as <- <-;
      (split; [reflexivity|]); (eexists; split; [left; reflexivity|]); unfold set_conns; cbn [sv_queue sv_conns sv_sid sv_accepting sv_root sv_next sv_store sv_trace];
      rewrite <- ?app_assoc; cbn [app]; do 6 eexists; exists q0; eexists; eexists; (split; reflexivity).
Qed.
Lemma twin_run is : forall a b, twin a b -> (forall ok, ~ In (IConnect ok) is) -> forall al b', lrun (map LIn is) false b = LOk al b' ->
  exists a', run is a = VOk a' /\ twin a' b'.
Proof.
  induction is as [|i is IH]; intros a b Ht Hi al b' Hr; cbn [map l_run sv_run] in *.
  - injection Hr as <- <-. exists a. split; [reflexivity|exact Ht].
  - destruct (l_step E net size fuel tty color (LIn i) false b) as [al1 b1| |] eqn:Hs; try discriminate.
    destruct (twin_step i a b Ht) with (al := al1) (b' := b1) as (-> & a1 & Ha & Ht1); [intros ok ->; apply (Hi ok); left; reflexivity|exact Hs|].
    assert (Hi' : forall ok, ~ In (IConnect ok) is) by (intros ok H; apply (Hi ok); right; exact H).
    destruct (IH a1 b1 Ht1 Hi' al b' Hr) as (a' & Hra & Ht'). exists a'. split; [|exact Ht'].
    destruct Ha as [Ha|(x & Ha)]; rewrite Ha; exact Hra.
Qed.
Lemma sessions_go_on sv is al sv' : sv_accepting sv = true -> (forall ok, ~ In (IConnect ok) is) -> lrun (LDestroy :: map LIn is) true sv = LOk al sv' ->
  exists sv'', run is sv = VOk sv'' /\ sv_conns sv'' = sv_conns sv' /\ sv_trace sv'' = sv_trace sv' /\ sv_store sv'' = sv_store sv' /\ sv_root sv'' = sv_root sv'.
Proof.
  intros Ha Hi Hr. cbn [l_run l_step] in Hr.
  destruct (twin_run is sv (l_destroy sv)) with (al := al) (b' := sv') as (a' & Hra & Ht); [|exact Hi|exact Hr|].
  - exists (sv_root sv), (sv_next sv), (sv_store sv), (sv_trace sv), (sv_conns sv), (sv_sid sv), (sv_queue sv), [], true. unfold l_destroy. rewrite Ha, app_nil_r.
    split; [destruct sv; cbn in *; subst; reflexivity|reflexivity].
  - destruct Ht as (rt & nx & st & tr & cs & sd & q0 & q1 & acc & -> & ->). eexists. split; [exact Hra|]. repeat split.
Qed.
End Sessions.
