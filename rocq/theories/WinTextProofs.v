(** * Proofs about the history file on Windows *)

From Verif Require Import Base StorageModel StorageSpec StorageProofs WinTextModel WinTextSpec.
Open Scope list_scope.

Fixpoint before_z (s : str) : str := match s with [] => [] | c :: s' => if Ascii.eqb c "026" then [] else c :: before_z s' end.
Lemma encode_cons c s : w_encode (c :: s) = (if Ascii.eqb c "010" then ["013"%char; "010"%char] else [c]) ++ w_encode s.
Proof. reflexivity. Qed.
Lemma encode_app s t : w_encode (s ++ t) = w_encode s ++ w_encode t.
Proof. unfold w_encode. apply flat_map_app. Qed.
(** A line feed never comes first. *)
Lemma decode_cr s : match w_encode s with d :: _ => Ascii.eqb d "010" = false | [] => True end.
Proof. destruct s as [|c s]; [exact Logic.I|]. rewrite encode_cons. destruct (Ascii.eqb c "010") eqn:E; cbn; [reflexivity|exact E]. Qed.
Lemma decode_keep c s : Ascii.eqb c "026" = false -> Ascii.eqb c "010" = false -> w_decode (c :: w_encode s) = c :: w_decode (w_encode s).
Proof.
  intros Hz Hl. cbn [w_decode]. rewrite Hz. destruct (Ascii.eqb c "013") eqn:E; [|reflexivity]. pose proof (decode_cr s) as H. destruct (w_encode s) as [|d r]; [reflexivity|]. rewrite H. reflexivity.
Qed.
Lemma decode_encode s : w_decode (w_encode s) = before_z s.
Proof.
  induction s as [|c s IH]; [reflexivity|]. rewrite encode_cons. cbn [before_z]. destruct (Ascii.eqb_spec c "010") as [->|Hc].
  - cbn. rewrite IH. reflexivity.
  - cbn [app]. destruct (Ascii.eqb c "026") eqn:Ez; [cbn [w_decode]; rewrite Ez; reflexivity|]. rewrite decode_keep; [rewrite IH; reflexivity|exact Ez|]. apply Ascii.eqb_neq. exact Hc.
Qed.
Lemma before_z_free s : ~ In ctrl_z s -> before_z s = s.
Proof.
  induction s as [|c s IH]; [reflexivity|]. intros H. cbn [before_z]. destruct (Ascii.eqb_spec c "026") as [->|Hc]; [exfalso; apply H; left; reflexivity|]. rewrite IH; [reflexivity|]. intros Q. apply H. right. exact Q.
Qed.
Lemma before_z_app s t : ~ In ctrl_z s -> before_z (s ++ t) = s ++ before_z t.
Proof.
  induction s as [|c s IH]; [reflexivity|]. intros H. cbn [before_z app]. destruct (Ascii.eqb_spec c "026") as [->|Hc]; [exfalso; apply H; left; reflexivity|]. rewrite IH; [reflexivity|]. intros Q. apply H. right. exact Q.
Qed.
Lemma put_free l : Forall text_line l -> ~ In ctrl_z (put_lines l).
Proof.
  induction 1 as [|x l (_ & Hx) _ IH]; [intros []|]. cbn [put_lines]. intros Q. apply in_app_or in Q as [Q|Q]; [exact (Hx Q)|]. cbn in Q. destruct Q as [Q|Q]; [discriminate|exact (IH Q)].
Qed.
Lemma decode_free s : ~ In ctrl_z (w_decode s).
Proof.
  enough (H : forall n s, length s <= n -> ~ In ctrl_z (w_decode s)) by exact (H (length s) s (le_n _)). clear s.
  induction n as [|n IH]; intros s Hn; [destruct s; [intros []|cbn in Hn; lia]|].
  destruct s as [|c s]; [intros []|]. cbn [w_decode]. cbn [length] in Hn. destruct (Ascii.eqb_spec c "026") as [->|Hc]; [intros []|].
  assert (Hs : forall t, length t <= n -> forall d, d <> "026"%char -> ~ In ctrl_z (d :: w_decode t)) by (intros t Ht d Hd [Q|Q]; [exact (Hd Q)|exact (IH t Ht Q)]).
  destruct (Ascii.eqb c "013"); [|apply Hs; [lia|exact Hc]]. destruct s as [|d s']; [intros [Q|[]]; exact (Hc Q)|]. destruct (Ascii.eqb_spec d "010") as [->|Hd].
  - apply Hs; [cbn [length] in Hn; lia|discriminate].
  - apply Hs; [lia|exact Hc].
Qed.
Lemma getlines_free s : forall acc, ~ In ctrl_z acc -> ~ In ctrl_z s -> Forall (fun x => ~ In ctrl_z x) (getlines acc s).
Proof.
  induction s as [|c s IH]; intros acc Ha Hs; cbn [getlines]; [destruct acc; constructor; [exact Ha|constructor]|].
  assert (Hs' : ~ In ctrl_z s) by (intros Q; apply Hs; right; exact Q). destruct (Ascii.eqb c "010").
  - constructor; [exact Ha|]. apply IH; [intros []|exact Hs'].
  - apply IH; [|exact Hs']. intros Q. apply in_app_or in Q as [Q|[Q|[]]]; [exact (Ha Q)|]. apply Hs. left. exact Q.
Qed.
Lemma w_commands_text f : Forall text_line (w_commands f).
Proof.
  destruct f as [s|]; [|constructor]. cbn [w_commands]. apply Forall_forall. intros x Hx. split.
  - pose proof (getlines_one_line (w_decode s) [] (fun q => q)) as H. rewrite Forall_forall in H. exact (H x Hx).
  - pose proof (getlines_free (w_decode s) [] (fun q => q) (decode_free s)) as H. rewrite Forall_forall in H. exact (H x Hx).
Qed.
Lemma text_one l : Forall text_line l -> Forall one_line l.
Proof. apply Forall_impl. intros x (H & _). exact H. Qed.
Lemma read_back l : Forall text_line l -> w_commands (Some (w_encode (put_lines l))) = l.
Proof. intros H. cbn [w_commands]. rewrite decode_encode, before_z_free by exact (put_free l H). apply getlines_put, text_one, H. Qed.
Lemma new_text max f cmds : Forall text_line cmds -> Forall text_line (lastn max (w_commands f ++ cmds)).
Proof. intros H. apply Forall_lastn, Forall_app. split; [apply w_commands_text|exact H]. Qed.
Lemma w_step_ideal f o : op_text o -> w_commands (w_step f o) = ideal_step (w_commands f) o.
Proof.
  intros H. destruct o as [max cmds|]; [|reflexivity]. cbn [w_step ideal_step]. unfold w_store. rewrite append_trim_lastn. apply read_back, new_text, H.
Qed.
Theorem text_ideal os : Forall op_text os -> forall f, w_commands (fold_left w_step os f) = ideal (w_commands f) os.
Proof.
  unfold ideal. induction 1 as [|o os Ho _ IH]; intro f; cbn [fold_left]; [reflexivity|]. rewrite IH, w_step_ideal by exact Ho. reflexivity.
Qed.
Theorem text_same os : Forall op_text os -> w_commands (fold_left w_step os None) = f_commands (fold_left f_step os None).
Proof.
  intros H. rewrite (text_ideal os H None). symmetry. apply file_ideal. revert H. apply Forall_impl. intros [max cmds|] Ho; [exact (text_one _ Ho)|exact Logic.I].
Qed.
Lemma encode_put l : Forall one_line l -> w_encode (put_lines l) = dos_lines l.
Proof.
  induction 1 as [|x l Hx _ IH]; [reflexivity|]. cbn [put_lines]. rewrite !encode_app, IH. unfold dos_lines. cbn [flat_map]. rewrite <- app_assoc. f_equal.
  clear IH. induction x as [|c x IHx]; [reflexivity|]. rewrite encode_cons. destruct (Ascii.eqb_spec c "010") as [->|Hc]; [exfalso; apply Hx; left; reflexivity|]. cbn [app]. rewrite IHx; [reflexivity|]. intros Q. apply Hx. right. exact Q.
Qed.
Theorem text_bytes max f cmds : Forall one_line cmds -> w_store max f cmds = Some (dos_lines (lastn max (w_commands f ++ cmds))).
Proof.
  intros H. unfold w_store. rewrite append_trim_lastn, encode_put; [reflexivity|]. apply Forall_lastn, Forall_app. split; [apply text_one, w_commands_text|exact H].
Qed.
(** ** Ctrl-Z *)
Lemma put_app l l' : put_lines (l ++ l') = put_lines l ++ put_lines l'.
Proof. induction l as [|x l IH]; [reflexivity|]. cbn [put_lines app]. rewrite IH, <- app_assoc. reflexivity. Qed.
Lemma getlines_puts l s : Forall one_line l -> getlines [] (put_lines l ++ s) = l ++ getlines [] s.
Proof.
  induction 1 as [|x l Hx _ IH]; [reflexivity|]. cbn [put_lines]. rewrite <- !app_assoc. rewrite getlines_line by exact Hx. cbn [app]. rewrite IH. reflexivity.
Qed.
Theorem text_cut pre a b post : Forall text_line pre -> text_line a -> Forall one_line ((a ++ [ctrl_z] ++ b) :: post) ->
  w_commands (Some (dos_lines (pre ++ (a ++ [ctrl_z] ++ b) :: post))) = pre ++ match a with [] => [] | _ => [a] end.
Proof.
  intros Hp (Ha & Ha2) Hl. rewrite <- encode_put; [|apply Forall_app; split; [apply text_one, Hp|exact Hl]]. cbn [w_commands]. rewrite decode_encode, put_app, before_z_app by exact (put_free pre Hp).
  rewrite getlines_puts by exact (text_one pre Hp). f_equal. cbn [put_lines]. rewrite <- app_assoc, before_z_app by exact Ha2. cbn. rewrite app_nil_r, getlines_nonl by exact Ha. destruct a; reflexivity.
Qed.
(** ** Files of other systems *)
Theorem dos_read l : Forall one_line l -> f_commands (Some (dos_lines l)) = map (fun x => x ++ [cr]) l.
Proof.
  intros H. cbn [f_commands]. unfold dos_lines. induction H as [|x l Hx _ IH]; [reflexivity|]. cbn [flat_map map]. replace ((x ++ [cr; "010"%char]) ++ flat_map (fun x => x ++ [cr; "010"%char]) l) with ((x ++ [cr]) ++ ["010"%char] ++ flat_map (fun x => x ++ [cr; "010"%char]) l) by (rewrite <- !app_assoc; reflexivity).
  rewrite getlines_line; [cbn [app]; rewrite IH; reflexivity|]. intros Q. apply in_app_or in Q as [Q|[Q|[]]]; [exact (Hx Q)|discriminate].
Qed.
Lemma decode_line x : text_line x -> (forall y, x <> y ++ [cr]) -> forall s, w_decode (x ++ "010"%char :: s) = x ++ "010"%char :: w_decode s.
Proof.
  induction x as [|c x IH]; intros (H1 & H2) He s; [reflexivity|]. assert (Hx : text_line x) by (split; intros Q; [apply H1|apply H2]; right; exact Q).
  assert (He' : forall y, x <> y ++ [cr]) by (intros y ->; exact (He (c :: y) eq_refl)).
  cbn [app w_decode]. destruct (Ascii.eqb_spec c "026") as [->|Hz]; [exfalso; apply H2; left; reflexivity|]. specialize (IH Hx He' s). destruct (Ascii.eqb_spec c "013") as [->|Hc]; [|rewrite IH; reflexivity].
  destruct x as [|d x]; [exfalso; exact (He [] eq_refl)|]. cbn [app] in *. destruct (Ascii.eqb_spec d "010") as [->|Hd]; [exfalso; apply H1; right; left; reflexivity|]. rewrite IH. reflexivity.
Qed.
Theorem unix_read l : Forall text_line l -> (forall x y, In x l -> x <> y ++ [cr]) -> w_commands (Some (put_lines l)) = l.
Proof.
  intros H He. cbn [w_commands]. assert (E : w_decode (put_lines l) = put_lines l).
  { induction H as [|x l Hx _ IH]; [reflexivity|]. cbn [put_lines app]. rewrite decode_line; [rewrite IH; [reflexivity|]|exact Hx|intros y; apply He; left; reflexivity]. intros z y Hz. apply He. right. exact Hz. }
  rewrite E. apply getlines_put, text_one, H.
Qed.
(** ** Crashes *)
Lemma decode_cut t : ~ In ctrl_z t -> forall k, exists j, w_decode (firstn k (w_encode t)) = firstn j t \/ (nth_error t j = Some "010"%char /\ w_decode (firstn k (w_encode t)) = firstn j t ++ [cr]).
Proof.
  induction t as [|c t IH]; intros Hz k; [exists 0; left; rewrite firstn_nil; reflexivity|]. assert (Hz' : ~ In ctrl_z t) by (intros Q; apply Hz; right; exact Q).
  assert (Hc : c <> "026"%char) by (intros ->; apply Hz; left; reflexivity). destruct k as [|k]; [exists 0; left; reflexivity|].
  rewrite encode_cons. destruct (Ascii.eqb_spec c "010") as [->|Hl].
  - destruct k as [|k]; [exists 0; right; split; reflexivity|]. cbn [app firstn]. destruct (IH Hz' k) as (j & [H|(H1 & H2)]).
    + exists (S j). left. cbn. f_equal. exact H.
    + exists (S j). right. split; [exact H1|]. cbn. f_equal. exact H2.
  - cbn [app firstn]. assert (E : w_decode (c :: firstn k (w_encode t)) = c :: w_decode (firstn k (w_encode t))).
    { cbn [w_decode]. apply Ascii.eqb_neq in Hc. rewrite Hc. destruct (Ascii.eqb c "013"); [|reflexivity]. pose proof (decode_cr t) as H. destruct k; [reflexivity|]. destruct (w_encode t) as [|d r]; [reflexivity|]. cbn [firstn]. rewrite H. reflexivity. }
    rewrite E. destruct (IH Hz' k) as (j & [H|(H1 & H2)]).
    + exists (S j). left. cbn. f_equal. exact H.
    + exists (S j). right. split; [exact H1|]. cbn. f_equal. exact H2.
Qed.
Lemma cut_at_end l : Forall one_line l -> forall j, nth_error (put_lines l) j = Some "010"%char -> extra_cr l (getlines [] (firstn j (put_lines l) ++ [cr])).
Proof.
  induction 1 as [|x l Hx _ IH]; intros j Hj; [destruct j; discriminate|]. cbn [put_lines] in *. destruct (Nat.lt_total j (length x)) as [L|[L|L]].
  - rewrite nth_error_app1 in Hj by exact L. exfalso. apply Hx. exact (nth_error_In _ _ Hj).
  - subst j. exists 0, x. split; [reflexivity|]. rewrite firstn_app, Nat.sub_diag, firstn_all. cbn [firstn app]. rewrite app_nil_r, getlines_nonl; [cbn [app firstn]; destruct x; reflexivity|]. intros Q. apply in_app_or in Q as [Q|[Q|[]]]; [exact (Hx Q)|discriminate].
  - replace j with (length x + S (j - length x - 1)) in * by lia. set (i := j - length x - 1) in *. rewrite nth_error_app2 in Hj by lia. replace (length x + S i - length x) with (S i) in Hj by lia. cbn in Hj.
    rewrite firstn_app_2. cbn [app firstn]. rewrite <- app_assoc. change ("010"%char :: firstn i (put_lines l)) with (["010"%char] ++ firstn i (put_lines l)). rewrite <- app_assoc, getlines_line by exact Hx. cbn [app].
    destruct (IH i Hj) as (n & y & N & E). exists (S n), y. split; [exact N|]. rewrite E. reflexivity.
Qed.
Theorem text_crash k max f cmds : Forall text_line cmds -> let new := lastn max (w_commands f ++ cmds) in
  cut new (w_commands (w_store_crash k max f cmds)) \/ extra_cr new (w_commands (w_store_crash k max f cmds)).
Proof.
  intros H. cbn zeta. pose proof (new_text max f cmds H) as Hn. unfold w_store_crash. rewrite append_trim_lastn. cbn [w_commands]. set (new := lastn max (w_commands f ++ cmds)) in *.
  destruct (decode_cut (put_lines new) (put_free new Hn) k) as (j & [E|(E1 & E2)]).
  - left. rewrite E. apply crash_prefix, text_one, Hn.
  - right. rewrite E2. apply cut_at_end; [exact (text_one new Hn)|exact E1].
Qed.
Theorem text_ctrl_z max f cmds pre a b post : Forall one_line cmds -> lastn max (w_commands f ++ cmds) = pre ++ (a ++ [ctrl_z] ++ b) :: post ->
  Forall text_line pre -> ~ In ctrl_z a -> w_commands (w_store max f cmds) = pre ++ match a with [] => [] | _ => [a] end.
Proof.
  intros H E Hp Ha. rewrite text_bytes by exact H. assert (Hn : Forall one_line (lastn max (w_commands f ++ cmds))) by (apply Forall_lastn, Forall_app; split; [apply text_one, w_commands_text|exact H]).
  rewrite E in *. apply Forall_app in Hn as (_ & Hn). apply text_cut; [exact Hp| |exact Hn]. split; [|exact Ha]. inversion Hn as [|? ? Hx]; subst. intros Q. apply Hx, in_or_app. left. exact Q.
Qed.
Theorem to_unix max f cmds : Forall one_line cmds -> f_commands (w_store max f cmds) = map (fun x => x ++ [cr]) (lastn max (w_commands f ++ cmds)).
Proof.
  intros H. rewrite text_bytes by exact H. apply dos_read, Forall_lastn, Forall_app. split; [apply text_one, w_commands_text|exact H].
Qed.
