(** * Proofs about file sessions when reading fails *)

From Verif Require Import Base FromStringModel SplitModel HistoryModel StorageModel TerminalModel MenuModel SessionModel SessionSpec SessionProofs
  FileModel FileSpec FileProofs FileFailModel.
Open Scope nat_scope.
Open Scope list_scope.

Section Loop.
Context (E : env) (fuel : nat) (tty : bool) (color : list event -> bool).
Notation FE := (FE E).
Notation loop := (fx_loop E true (S fuel) tty color).
Notation spec := (script FE (S fuel) tty color).

Lemma feed_blank G w : feed G (S fuel) [] w = FOk w.
Proof. reflexivity. Qed.

(** A round that reads a line. *)
Lemma round_feed w0 n s l i ls : fs_exit s = false -> in_good (fs_in s) = true -> getline_x (fs_in s) = (l, i) -> in_eof i = false ->
  bumps FE 0 w0 (fs_world s) ->
  (forall w force, bumps FE 0 w0 w -> same_end (loop n (mkFs w force i false)) (spec ls force w) /\ done_once E w0 (loop n (mkFs w force i false))) ->
  same_end (loop (S n) s) (spec (l :: ls) (fs_force s) (fs_world s)) /\ done_once E w0 (loop (S n) s).
Proof.
  intros Hex Hg Hl He Hb IH. cbn [fx_loop script]. rewrite Hex. unfold fs_prompt.
  destruct (prompt tty _ (fs_force s) (fs_world s)) as [(b, force)|]; [|split; exact Logic.I].
  cbn [l_bind fs_in]. rewrite Hg. cbn [l_bind fs_in]. rewrite Hl, He.
  unfold fs_feed. cbn [fenv fs_world fs_force fs_exit]. change (file_env E) with FE.
  pose proof (feed_bumps FE (fe_has E) (fe_ret E) (S fuel) l (out b (fs_world s))) as Hf.
  pose proof (bumps_trans FE 0 0 _ _ _ Hb (bumps_out FE b (fs_world s))) as Hb1.
  destruct (feed FE (S fuel) l (out b (fs_world s))) as [w|x w| |]; cbn [of_f l_bind f_bumps] in *.
  - destruct Hf as (k & Hk & Hf). erewrite arrive_exit by exact Hf. cbn [fs_world fs_force fs_in fs_exit].
    pose proof (bumps_trans FE 0 k _ _ _ (bumps_out FE b (fs_world s)) Hf) as Hf'. rewrite (hooked_bumps E _ _ _ Hf').
    rewrite Hex. cbn [orb plus]. destruct k as [|[|k]]; [| |lia].
    + rewrite Nat.add_0_r, !Nat.ltb_irrefl. apply (IH w force (bumps_trans FE 0 0 _ _ _ Hb1 Hf)).
    + assert (Hlt : forall m, Nat.ltb m (m + 1) = true) by (intros m; apply Nat.ltb_lt; lia). rewrite !Hlt. change (Nat.ltb 0 1) with true.
      destruct n; cbn [fx_loop fs_exit]; (split; [reflexivity|split; [reflexivity|exact (bumps_trans FE 0 1 _ _ _ Hb1 Hf)]]).
  - destruct Hf as (k & Hk & Hf). split; [split; reflexivity|]. exists k. split; [exact Hk|]. exact (bumps_trans FE 0 k _ _ _ Hb1 Hf).
  - split; exact Logic.I.
  - split; exact Logic.I.
Qed.

(** The round after the failure. *)
Lemma round_bad w0 n w force : bumps FE 0 w0 w ->
  let s := mkFs w force (mkIn [] false true) false in
  same_end (loop (S n) s) (spec [] force w) /\ done_once E w0 (loop (S n) s).
Proof.
  intros Hb. cbn zeta. cbn [fx_loop script fs_exit]. unfold fs_prompt. cbn [fs_world fs_force].
  destruct (prompt tty _ force w) as [(b, force')|]; [|split; exact Logic.I].
  cbn [l_bind fs_in in_good in_eof in_fail negb andb].
  match goal with |- context[fs_leave E true ?s] => pose proof (leave_end E w0 s) as Hl; set (s1 := s) in * end.
  specialize (Hl (bumps_trans FE 0 0 _ _ _ Hb (bumps_out FE b _))). cbn [fs_world s1] in Hl |- *.
  destruct (fs_leave E true s1) as [f|x f| |], (session_exit FE (out b w)) as [w2|y w2| |]; try contradiction; cbn [l_bind].
  - destruct Hl as (-> & Hl). cbn [fs_in fs_force s1 getline_x in_good in_eof in_fail negb andb in_rest fs_world fs_exit].
    unfold fs_feed. cbn [fs_world]. rewrite feed_blank. cbn [of_f l_bind].
    rewrite (arrive_exit E 0) by apply bumps_refl. cbn [fs_force fs_in fs_exit orb].
    destruct n; cbn [fx_loop fs_exit]; (split; [reflexivity|split; [reflexivity|exact Hl]]).
  - destruct Hl as (-> & <- & Hl). split; [split; reflexivity|]. exists 1. split; [lia|exact Hl].
  - split; exact Logic.I.
  - split; exact Logic.I.
Qed.

Lemma loop_fails w0 rest : ~ In "010"%char rest -> forall ls n s,
  Forall (fun l => ~ In "010"%char l) ls -> S (length ls) < n -> fs_exit s = false ->
  fs_in s = mkIn (concat (map (fun l => l ++ nl) ls) ++ rest) false false -> bumps FE 0 w0 (fs_world s) ->
  same_end (loop n s) (spec (ls ++ [rest]) (fs_force s) (fs_world s)) /\ done_once E w0 (loop n s).
Proof.
  intros Hrest. induction ls as [|l ls IH]; intros n s Hls Hn Hex Hin Hb; (destruct n as [|n]; [cbn in Hn; lia|]); cbn [app].
  - apply (round_feed w0 n s rest (mkIn [] false true)); try assumption; try reflexivity.
    + rewrite Hin. reflexivity.
    + rewrite Hin. unfold getline_x. cbn [in_good in_eof in_fail negb andb in_rest map concat app]. rewrite (upto_nl_none rest Hrest). reflexivity.
    + intros w force B. destruct n as [|n]; [cbn in Hn; lia|]. apply round_bad. exact B.
  - inversion Hls as [|? ? Hl Hls']; subst.
    apply (round_feed w0 n s l (mkIn (concat (map (fun l => l ++ nl) ls) ++ rest) false false)); try assumption; try reflexivity.
    + rewrite Hin. reflexivity.
    + rewrite Hin. unfold getline_x. cbn [in_good in_eof in_fail negb andb in_rest map concat]. rewrite <- !app_assoc, (upto_nl_line l _ Hl). reflexivity.
    + intros w force B. apply (IH n (mkFs w force _ false)); try assumption; try reflexivity. cbn in Hn. lia.
Qed.
Lemma start_fails s ls rest n : fs_exit s = false -> fs_in s = mkIn (in_rest (fs_in s)) false false ->
  lines_of (in_rest (fs_in s)) ls rest -> S (length ls) < n ->
  let r := fx_start E true (S fuel) tty color n s in
  same_end r (run_script FE (S fuel) tty color (ls ++ [rest]) (fs_force s) (fs_world s)) /\ done_once E (fs_world s) r.
Proof.
  intros Hex Hin (Ht & Hl & Hr) Hn. cbn zeta. unfold fx_start, run_script, fs_enter. cbn [fenv]. change (file_env E) with FE.
  pose proof (enter_bumps FE (fs_world s)) as He.
  destruct (session_enter FE (fs_world s)) as [w|x w| |]; cbn [of_h l_bind h_bumps] in *; try (split; exact Logic.I).
  - rewrite (arrive_exit E 0 s w He), Hex. cbn [Nat.ltb Nat.leb orb].
    apply (loop_fails (fs_world s) rest Hr ls n (mkFs w (fs_force s) (fs_in s) false)); [exact Hl|exact Hn|reflexivity| |exact He].
    cbn [fs_in]. rewrite <- Ht. exact Hin.
  - rewrite (arrive_exit E 0 s w He). split; [split; reflexivity|]. exists 0. split; [lia|exact He].
Qed.
End Loop.

(** What can be read of a text before the failure. *)
Lemma no_nl_firstn k (l : str) : ~ In "010"%char l -> ~ In "010"%char (firstn k l).
Proof. intros H I. apply H. rewrite <- (firstn_skipn k l). apply in_or_app. left. exact I. Qed.
Lemma cut_lines text ls rest k : lines_of text ls rest ->
  exists m r, m <= length ls /\ lines_of (firstn k text) (firstn m ls) r /\ exists more, nth m (ls ++ [rest]) [] = r ++ more.
Proof.
  intros (-> & Hl & Hr). revert k. induction Hl as [|l ls Hn Hl IH]; intros k.
  - exists 0, (firstn k rest). split; [cbn; lia|]. split.
    + split; [reflexivity|]. split; [constructor|apply no_nl_firstn, Hr].
    + exists (skipn k rest). cbn. symmetry. apply firstn_skipn.
  - cbn [map concat]. destruct (Nat.le_gt_cases k (length l)) as [K|K].
    + exists 0, (firstn k l). split; [lia|]. split.
      * split; [cbn [firstn map concat app]; rewrite <- !app_assoc, firstn_app; replace (k - length l) with 0 by lia; cbn; apply app_nil_r|].
        split; [constructor|apply no_nl_firstn, Hn].
      * exists (skipn k l). cbn. symmetry. apply firstn_skipn.
    + destruct (IH (k - S (length l))) as (m & r & M & (T & F & R) & more & N). exists (S m), r. split; [cbn; lia|]. split.
      * split; [|split; [cbn [firstn]; constructor; assumption|exact R]].
        cbn [firstn map concat]. rewrite <- !app_assoc, firstn_app, (firstn_all2 l) by lia. f_equal.
        replace (k - length l) with (S (k - S (length l))) by lia. unfold nl at 1 3. cbn [app firstn]. f_equal. exact T.
      * exists more. exact N.
Qed.
