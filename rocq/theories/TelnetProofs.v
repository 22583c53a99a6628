(** * Proofs about telnet sessions *)

From Verif Require Import Base TerminalModel TelnetModel TelnetSpec.
Open Scope nat_scope.
Open Scope list_scope.

(** ** Segmentation *)
Lemma on_data_app a : forall b t, on_data (a ++ b) t =
  let (t1, o) := on_data a t in let (t2, o') := on_data b t1 in (t2, o ++ o').
Proof.
  induction a as [|c a IH]; intros b t; cbn [on_data app].
  - destruct (on_data b t). reflexivity.
  - destruct (consume c t) as [t1 o1]. rewrite IH. destruct (on_data a t1) as [t2 o2]. destruct (on_data b t2) as [t3 o3].
    rewrite app_assoc. reflexivity.
Qed.
Lemma reads_concat chunks : forall t, reads chunks t = on_data (concat chunks) t.
Proof.
  induction chunks as [|d chunks IH]; intros t; cbn [reads concat]; [reflexivity|].
  rewrite on_data_app. destruct (on_data d t) as [t1 o]. rewrite IH. reflexivity.
Qed.
Lemma outputs_app a : forall b s, outputs (a ++ b) s =
  let (s1, k) := outputs a s in let (s2, k') := outputs b s1 in (s2, k ++ k').
Proof.
  induction a as [|c a IH]; intros b s; cbn [outputs app].
  - destruct (outputs b s). reflexivity.
  - destruct (output c s) as [s1 k1]. rewrite IH. destruct (outputs a s1) as [s2 k2]. destruct (outputs b s2) as [s3 k3].
    rewrite app_assoc. reflexivity.
Qed.
Lemma bytes_app a b : bytes_of (a ++ b) = bytes_of a ++ bytes_of b.
Proof. apply flat_map_app. Qed.
Lemma sent_app a b : sent_of (a ++ b) = sent_of a ++ sent_of b.
Proof. apply flat_map_app. Qed.
Lemma receive_app a b d : receive (a ++ b) d =
  let '(d1, (k1, s1)) := receive a d in let '(d2, (k2, s2)) := receive b d1 in (d2, (k1 ++ k2, s1 ++ s2)).
Proof.
  unfold receive. rewrite on_data_app. destruct (on_data a (d_tel d)) as [t1 o1]. cbn [d_tel].
  destruct (outputs (bytes_of o1) (d_step d)) as [q1 k1] eqn:E1. cbn [d_tel d_step].
  destruct (on_data b t1) as [t2 o2]. rewrite bytes_app, outputs_app, E1. destruct (outputs (bytes_of o2) q1) as [q2 k2].
  rewrite sent_app. reflexivity.
Qed.
Lemma receive_nil d : receive [] d = (d, ([], [])).
Proof. destruct d. reflexivity. Qed.
Lemma receives_concat chunks : forall d, receives chunks d = receive (concat chunks) d.
Proof.
  induction chunks as [|c chunks IH]; intros d; cbn [receives concat]; [symmetry; apply receive_nil|].
  rewrite receive_app. destruct (receive c d) as [d1 [k1 s1]]. rewrite IH. reflexivity.
Qed.

(** ** Streams *)
Lemma byte_range c : (byte_of c < 256)%N.
Proof. apply N_ascii_bounded. Qed.
Lemma eqb_byte c d : Ascii.eqb c d = N.eqb (byte_of c) (byte_of d).
Proof.
  destruct (Ascii.eqb_spec c d) as [->|H]; [symmetry; apply N.eqb_refl|]. symmetry. apply N.eqb_neq. intros E. apply H.
  rewrite <- (ascii_N_embedding c), <- (ascii_N_embedding d). unfold byte_of in E. rewrite E. reflexivity.
Qed.

Definition idle : telnet := mkTel TData false.
Lemma data_doubled c st : (on_data (doubled c) (mkTel st false)) = let (s, o) := t_data c st in (mkTel s false, o).
Proof.
  unfold doubled. destruct (Ascii.eqb_spec c FF) as [->|Hn]; cbn [on_data]; unfold consume; cbn [t_escape t_state].
  - change (Ascii.eqb FF IAC) with true. cbn [t_escape t_state]. change (Ascii.eqb FF IAC) with true. destruct (t_data FF st) as [s o]. rewrite app_nil_r. reflexivity.
  - destruct (Ascii.eqb_spec c IAC) as [->|_]; [contradiction|]. destruct (t_data c st) as [s o]. rewrite app_nil_r. reflexivity.
Qed.
Lemma sub_payload p : on_data (flat_map doubled p) (mkTel TSub false) = (mkTel TSub false, []).
Proof.
  induction p as [|c p IH]; [reflexivity|]. cbn [flat_map]. rewrite on_data_app, data_doubled. cbn [t_data]. rewrite IH. reflexivity.
Qed.

Definition item_out (i : item) : list tout :=
  match i with
  | IData c => [OutByte c]
  | INeg Will o => [rx_will o]
  | INeg Do o => [rx_do o]
  | _ => []
  end.
Lemma item_step i : item_ok i -> on_data (wire_item i) idle = (idle, item_out i).
Proof.
  intros H. destruct i as [c|c|v o|p]; cbn [wire_item item_ok item_out] in *.
  - unfold idle. rewrite data_doubled. reflexivity.
  - cbn [on_data]. unfold consume. cbn [t_escape t_state idle]. change (Ascii.eqb FF IAC) with true. cbn [t_escape t_state].
    assert (Hs : forall d, (byte_of d = 240 \/ 250 <= byte_of d)%N -> Ascii.eqb c d = false).
    { intros d Hd. rewrite eqb_byte. apply N.eqb_neq. lia. }
    rewrite (Hs IAC) by (right; vm_compute; discriminate). unfold t_command. rewrite (Hs SE) by (left; reflexivity).
    destruct (N.leb 241 (byte_of c) && N.leb (byte_of c) 249)%N; [reflexivity|].
    rewrite (Hs SB), (Hs WILL), (Hs WONT), (Hs DO), (Hs DONT) by (right; vm_compute; discriminate). reflexivity.
  - assert (Ho : Ascii.eqb o IAC = false) by (apply Ascii.eqb_neq; exact H).
    destruct v; cbn [on_data verb_code]; unfold consume; cbn [t_escape t_state idle]; change (Ascii.eqb FF IAC) with true; cbn [t_escape t_state];
      cbn -[rx_will rx_do Ascii.eqb]; rewrite ?Ho; cbn -[rx_will rx_do Ascii.eqb]; change (Ascii.eqb "251" IAC) with false; change (Ascii.eqb "252" IAC) with false; change (Ascii.eqb "253" IAC) with false; change (Ascii.eqb "254" IAC) with false; cbn -[rx_will rx_do];
      rewrite ?Ho; reflexivity.
  - rewrite !on_data_app. cbn -[on_data flat_map]. change (on_data [FF; "250"%char] idle) with (mkTel TSub false, @nil tout). cbv iota beta. rewrite on_data_app, sub_payload. reflexivity.
Qed.
Lemma items_out is : Forall item_ok is -> on_data (wire is) idle = (idle, flat_map item_out is).
Proof.
  induction 1 as [|i is Hi _ IH]; [reflexivity|]. unfold wire in *. cbn [flat_map]. rewrite on_data_app, item_step by exact Hi. rewrite IH. reflexivity.
Qed.
Lemma bytes_items is : bytes_of (flat_map item_out is) = data_of is.
Proof.
  induction is as [|i is IH]; [reflexivity|]. cbn [flat_map]. rewrite bytes_app, IH. unfold data_of. cbn [flat_map]. f_equal.
  destruct i as [c|c|v o|p]; try reflexivity. unfold item_out, rx_will, rx_do. destruct v; try reflexivity.
  - destruct (Ascii.eqb o opt_SGA); [reflexivity|]. destruct (Ascii.eqb o opt_NAWS); reflexivity.
  - destruct (Ascii.eqb o opt_ECHO); [reflexivity|]. destruct (Ascii.eqb o opt_SGA); reflexivity.
Qed.

Lemma sent_items is : sent_of (flat_map item_out is) = map (fun q => encode (reply q)) (requests is).
Proof.
  induction is as [|i is IH]; [reflexivity|]. cbn [flat_map]. rewrite sent_app, IH. unfold requests. cbn [flat_map]. rewrite map_app. f_equal.
  destruct i as [c|c|v o|p]; try reflexivity. unfold item_out, rx_will, rx_do. destruct v; try reflexivity; cbn [map]; unfold reply; cbn -[encode Ascii.eqb IAC opt_SGA opt_NAWS opt_ECHO].
  - destruct (Ascii.eqb o "003") eqn:E1; [apply Ascii.eqb_eq in E1; subst o; reflexivity|]. change opt_SGA with "003"%char. rewrite E1.
    destruct (Ascii.eqb o "031") eqn:E2; [apply Ascii.eqb_eq in E2; subst o; reflexivity|]. change opt_NAWS with "031"%char. rewrite E2. reflexivity.
  - destruct (Ascii.eqb o "001") eqn:E1; [apply Ascii.eqb_eq in E1; subst o; reflexivity|]. change opt_ECHO with "001"%char. rewrite E1.
    destruct (Ascii.eqb o "003") eqn:E2; [apply Ascii.eqb_eq in E2; subst o; reflexivity|]. change opt_SGA with "003"%char. rewrite E2. reflexivity.
Qed.
Lemma encode_plain s : ~ In "010"%char s -> encode s = s.
Proof.
  induction s as [|c s IH]; intros H; [reflexivity|]. cbn [encode flat_map]. fold (encode s). rewrite IH by (intros Hi; apply H; right; exact Hi).
  destruct (Ascii.eqb_spec c "010") as [->|]; [exfalso; apply H; left; reflexivity|reflexivity].
Qed.
Lemma reply_answers q : In (fst q) [Will; Do] -> snd q <> "010"%char -> answers (encode (reply q)) (snd q).
Proof.
  destruct q as [v o]. cbn [fst snd]. intros Hv Ho.
  assert (H : forall a, a <> "010"%char -> encode [IAC; a; o] = [IAC; a; o]).
  { intros a Ha. apply encode_plain. cbn. intros [H|[H|[H|[]]]]; [discriminate|contradiction|contradiction]. }
  unfold answers. destruct Hv as [<-|[<-|[]]]; unfold reply; cbn [snd].
  - exists (reply_verb (Will, o)). apply H. destruct (reply_verb (Will, o)); discriminate.
  - exists (reply_verb (Do, o)). apply H. destruct (reply_verb (Do, o)); discriminate.
Qed.

(** ** Keys *)
Lemma is_char_eq n c : (n < 256)%N -> is_char n c = Ascii.eqb c (ascii_of_N n).
Proof. intros H. unfold is_char. rewrite eqb_byte. unfold byte_of. rewrite N_ascii_embedding by exact H. reflexivity. Qed.
Lemma ordinary_key c : ordinary c -> output c K1 = (K1, [KAscii c]).
Proof.
  intros H. unfold output. rewrite !is_char_eq by reflexivity.
  assert (Hc : forall d, In d ["004"; "008"; "012"; "013"; "027"; "127"; "255"]%char -> Ascii.eqb c d = false).
  { intros d Hd. apply Ascii.eqb_neq. intros ->. exact (H Hd). }
  rewrite !Hc by (cbn; tauto). reflexivity.
Qed.
Lemma typed_key t : typed_ok t -> outputs (telnet_bytes t) K1 = (K1, [key_of t]).
Proof.
  intros H. destruct t as [c| | | | | | | |[]| | |[]]; try reflexivity. cbn [telnet_bytes outputs]. rewrite (ordinary_key c H). reflexivity.
Qed.
Lemma typed_keys ts : Forall typed_ok ts -> outputs (flat_map telnet_bytes ts) K1 = (K1, map key_of ts).
Proof.
  induction 1 as [|t ts Ht _ IH]; [reflexivity|]. cbn [flat_map map]. rewrite outputs_app, typed_key by exact Ht. rewrite IH. reflexivity.
Qed.
Lemma key_state c s : c <> "027"%char -> c <> "013"%char ->
  fst (output c s) = K1 \/ (s = K2 /\ fst (output c s) = K3) \/ (s = K3 /\ fst (output c s) = K4).
Proof.
  intros He Hr. destruct s; unfold output.
  - rewrite (is_char_eq 27), (is_char_eq 13) by reflexivity. change (ascii_of_N 27) with "027"%char. change (ascii_of_N 13) with "013"%char.
    rewrite (proj2 (Ascii.eqb_neq c "027") He), (proj2 (Ascii.eqb_neq c "013") Hr).
    destruct (is_char 255 c || is_char 4 c); [left; reflexivity|]. destruct (is_char 8 c || is_char 127 c); [left; reflexivity|]. destruct (is_char 12 c); left; reflexivity.
  - destruct (is_char 91 c); [right; left; split; reflexivity|left; reflexivity].
  - destruct (is_char 65 c); [left; reflexivity|]. destruct (is_char 66 c); [left; reflexivity|]. destruct (is_char 68 c); [left; reflexivity|]. destruct (is_char 67 c); [left; reflexivity|].
    destruct (is_char 70 c); [left; reflexivity|]. destruct (is_char 72 c); [left; reflexivity|right; right; split; reflexivity].
  - left. reflexivity.
  - left. reflexivity.
Qed.
Lemma resync s c1 c2 c3 : Forall (fun c => c <> "027"%char /\ c <> "013"%char) [c1; c2; c3] -> fst (outputs [c1; c2; c3] s) = K1.
Proof.
  intros H. inversion H as [|? ? (A1 & B1) H1]; subst. inversion H1 as [|? ? (A2 & B2) H2]; subst. inversion H2 as [|? ? (A3 & B3) _]; subst.
  cbn [outputs]. pose proof (key_state c1 s A1 B1) as P1. destruct (output c1 s) as [s1 k1]. cbn [fst] in P1.
  pose proof (key_state c2 s1 A2 B2) as P2. destruct (output c2 s1) as [s2 k2]. cbn [fst] in P2.
  pose proof (key_state c3 s2 A3 B3) as P3. destruct (output c3 s2) as [s3 k3]. cbn [fst] in P3 |- *.
  destruct P1 as [->|[(-> & ->)|(-> & ->)]], P2 as [->|[(E & ->)|(E & ->)]], P3 as [->|[(E' & ->)|(E' & ->)]]; try reflexivity; discriminate.
Qed.

(** ** Output *)
Lemma encode_app a b : encode (a ++ b) = encode a ++ encode b.
Proof. apply flat_map_app. Qed.
Lemma wire_bytes_encode ws : wire_bytes ws = encode (flat_map written ws).
Proof.
  induction ws as [|w ws IH]; [reflexivity|]. unfold wire_bytes in *. cbn [flat_map]. rewrite IH, encode_app. reflexivity.
Qed.
Lemma client_cons c s : c <> FF -> (c = "013"%char -> forall s', s <> "010"%char :: s') -> client (c :: s) = c :: client s.
Proof.
  intros Hf Hr. destruct s as [|d s]; [reflexivity|]. cbn [client].
  destruct (Ascii.eqb_spec c "013") as [->|]; cbn [andb].
  - destruct (Ascii.eqb_spec d "010") as [->|]; [exfalso; exact (Hr eq_refl s eq_refl)|]. reflexivity.
  - destruct (Ascii.eqb_spec c FF); [contradiction|]. reflexivity.
Qed.
Lemma encode_head s : forall s', encode s <> "010"%char :: s'.
Proof.
  destruct s as [|c s]; intros s' H; [discriminate|]. cbn [encode flat_map] in H.
  destruct (Ascii.eqb_spec c "010") as [->|Hn]; cbn in H; [discriminate|]. injection H as H _. contradiction.
Qed.
Lemma client_encode s : ~ In FF s -> client (encode s) = s.
Proof.
  induction s as [|c s IH]; intros H; [reflexivity|]. cbn [encode flat_map]. fold (encode s).
  assert (Hs : client (encode s) = s) by (apply IH; intros Hi; apply H; right; exact Hi).
  assert (Hc : c <> FF) by (intros ->; apply H; left; reflexivity).
  destruct (Ascii.eqb_spec c "010") as [->|Hn]; cbn [app].
  - change (client ("013"%char :: "010"%char :: encode s)) with (client ("010"%char :: encode s)).
    rewrite client_cons; [rewrite Hs; reflexivity|discriminate|discriminate].
  - rewrite client_cons; [rewrite Hs; reflexivity|exact Hc|intros _ s'; apply encode_head].
Qed.

(** ** All byte sequences *)
Definition kpart (s : kstep) (p : str) : Prop :=
  match s with
  | K1 => p = []
  | K2 => p = ["027"%char]
  | K3 => p = esc []
  | K4 => exists c, ~ In c cursor_letters /\ p = esc [c]
  | KWait0 => p = ["013"%char]
  end.
Lemma char_is n c d : byte_of d = n -> is_char n c = true -> c = d.
Proof. intros <- H. unfold is_char in H. rewrite <- eqb_byte in H. apply Ascii.eqb_eq, H. Qed.
Lemma char_not n c d : byte_of d = n -> is_char n c = false -> c <> d.
Proof. intros <- H ->. unfold is_char in H. rewrite N.eqb_refl in H. discriminate. Qed.
Lemma output_seq c s p : kpart s p ->
  (exists k, output c s = (K1, [k]) /\ telnet_seq (p ++ [c]) k) \/ (exists s', output c s = (s', []) /\ kpart s' (p ++ [c])).
Proof.
  intros Hp. destruct s; cbn [kpart output] in *.
  - subst p. cbn [app].
    destruct (is_char 255 c) eqn:E1; [left; exists KEof; split; [reflexivity|]; apply (char_is _ _ "255" eq_refl) in E1; subst c; constructor; cbn; tauto|].
    destruct (is_char 4 c) eqn:E2; [left; exists KEof; split; [reflexivity|]; apply (char_is _ _ "004" eq_refl) in E2; subst c; constructor; cbn; tauto|].
    destruct (is_char 8 c) eqn:E3; [left; exists KBackspace; split; [reflexivity|]; apply (char_is _ _ "008" eq_refl) in E3; subst c; constructor; cbn; tauto|].
    destruct (is_char 127 c) eqn:E4; [left; exists KBackspace; split; [reflexivity|]; apply (char_is _ _ "127" eq_refl) in E4; subst c; constructor; cbn; tauto|].
    destruct (is_char 12 c) eqn:E5; [left; exists KClear; split; [reflexivity|]; apply (char_is _ _ "012" eq_refl) in E5; subst c; constructor|].
    destruct (is_char 27 c) eqn:E6; [right; exists K2; split; [reflexivity|]; apply (char_is _ _ "027" eq_refl) in E6; subst c; reflexivity|].
    destruct (is_char 13 c) eqn:E7; [right; exists KWait0; split; [reflexivity|]; apply (char_is _ _ "013" eq_refl) in E7; subst c; reflexivity|].
    left. exists (KAscii c). split; [reflexivity|]. constructor. unfold ordinary. cbn [In].
    apply (char_not _ _ "255" eq_refl) in E1. apply (char_not _ _ "004" eq_refl) in E2. apply (char_not _ _ "008" eq_refl) in E3. apply (char_not _ _ "127" eq_refl) in E4.
    apply (char_not _ _ "012" eq_refl) in E5. apply (char_not _ _ "027" eq_refl) in E6. apply (char_not _ _ "013" eq_refl) in E7. intuition congruence.
  - subst p. destruct (is_char 91 c) eqn:E; [right; exists K3; split; [reflexivity|]; apply (char_is _ _ "[" eq_refl) in E; subst c; reflexivity|].
    left. exists KIgnored. split; [reflexivity|]. apply sq_esc. exact (char_not _ _ "[" eq_refl E).
  - subst p.
    destruct (is_char 65 c) eqn:E1; [left; exists KUp; split; [reflexivity|]; apply (char_is _ _ "A" eq_refl) in E1; subst c; constructor|].
    destruct (is_char 66 c) eqn:E2; [left; exists KDown; split; [reflexivity|]; apply (char_is _ _ "B" eq_refl) in E2; subst c; constructor|].
    destruct (is_char 68 c) eqn:E3; [left; exists KLeft; split; [reflexivity|]; apply (char_is _ _ "D" eq_refl) in E3; subst c; constructor|].
    destruct (is_char 67 c) eqn:E4; [left; exists KRight; split; [reflexivity|]; apply (char_is _ _ "C" eq_refl) in E4; subst c; constructor|].
    destruct (is_char 70 c) eqn:E5; [left; exists KEnd; split; [reflexivity|]; apply (char_is _ _ "F" eq_refl) in E5; subst c; constructor|].
    destruct (is_char 72 c) eqn:E6; [left; exists KHome; split; [reflexivity|]; apply (char_is _ _ "H" eq_refl) in E6; subst c; constructor|].
    right. exists K4. split; [reflexivity|]. exists c. split; [|reflexivity]. unfold cursor_letters. cbn [lit list_ascii_of_string In].
    apply (char_not _ _ "A" eq_refl) in E1. apply (char_not _ _ "B" eq_refl) in E2. apply (char_not _ _ "D" eq_refl) in E3. apply (char_not _ _ "C" eq_refl) in E4.
    apply (char_not _ _ "F" eq_refl) in E5. apply (char_not _ _ "H" eq_refl) in E6. intuition congruence.
  - destruct Hp as (d & Hd & ->). left. destruct (is_char 126 c) eqn:E; eexists; (split; [reflexivity|]).
    + apply (char_is _ _ "~" eq_refl) in E. subst c. exact (sq_delete d Hd).
    + exact (sq_other d c Hd (char_not _ _ "~" eq_refl E)).
  - subst p. left. destruct (is_char 0 c) eqn:E1; [|destruct (is_char 10 c) eqn:E2]; eexists; (split; [reflexivity|]).
    + apply (char_is _ _ "000" eq_refl) in E1. subst c. apply sq_enter. cbn. tauto.
    + apply (char_is _ _ "010" eq_refl) in E2. subst c. apply sq_enter. cbn. tauto.
    + apply (char_not _ _ "000" eq_refl) in E1. apply (char_not _ _ "010" eq_refl) in E2. apply sq_cr. cbn. intuition congruence.
Qed.
Lemma kpart_part s p : kpart s p -> telnet_part p.
Proof. destruct s; cbn [kpart]; try (intros ->; constructor). intros (c & Hc & ->). constructor. exact Hc. Qed.
Lemma outputs_seq bytes : forall s p, kpart s p -> exists qs r, p ++ bytes = flat_map fst qs ++ r /\ Forall (fun q => telnet_seq (fst q) (snd q)) qs /\ telnet_part r /\ snd (outputs bytes s) = map snd qs.
Proof.
  induction bytes as [|c bytes IH]; intros s p Hp; cbn [outputs].
  - exists [], p. rewrite app_nil_r. split; [reflexivity|]. split; [constructor|]. split; [exact (kpart_part s p Hp)|reflexivity].
  - destruct (output_seq c s p Hp) as [(k & E & Hq)|(s' & E & Hs')]; rewrite E.
    + destruct (IH K1 [] eq_refl) as (qs & r & H1 & H2 & H3 & H4). destruct (outputs bytes K1) as [s2 k2]. cbn [snd app] in *. exists ((p ++ [c], k) :: qs), r. cbn [flat_map fst map snd].
      split; [rewrite <- !app_assoc, <- H1; reflexivity|]. split; [constructor; [exact Hq|exact H2]|]. split; [exact H3|]. rewrite H4. reflexivity.
    + destruct (IH s' (p ++ [c]) Hs') as (qs & r & H1 & H2 & H3 & H4). destruct (outputs bytes s') as [s2 k2]. cbn [snd app] in *. exists qs, r.
      split; [rewrite <- H1, <- app_assoc; reflexivity|]. split; [exact H2|]. split; [exact H3|exact H4].
Qed.
(** And however the bytes are cut into sequences. *)
Lemma char_of n c d : byte_of d = n -> is_char n c = Ascii.eqb c d.
Proof. intros <-. unfold is_char. rewrite eqb_byte. reflexivity. Qed.
Lemma seq_run a k : telnet_seq a k -> outputs a K1 = (K1, [k]).
Proof.
  assert (L : forall c, ~ In c cursor_letters -> output c K3 = (K4, [])).
  { intros c H. unfold cursor_letters in H. cbn [lit list_ascii_of_string In] in H. cbn [output].
    rewrite (char_of 65 c "A" eq_refl), (char_of 66 c "B" eq_refl), (char_of 67 c "C" eq_refl), (char_of 68 c "D" eq_refl), (char_of 70 c "F" eq_refl), (char_of 72 c "H" eq_refl).
    rewrite !(proj2 (Ascii.eqb_neq c _)) by (intros ->; tauto). reflexivity. }
  intros H. destruct H as [c H|c H|c H| |c H|c H|c H| | | | | | |c H|c d H Hd]; try reflexivity.
  - unfold ordinary in H. cbn [In] in H. cbn [outputs output]. rewrite (char_of 255 c "255" eq_refl), (char_of 4 c "004" eq_refl), (char_of 8 c "008" eq_refl), (char_of 127 c "127" eq_refl), (char_of 12 c "012" eq_refl), (char_of 27 c "027" eq_refl), (char_of 13 c "013" eq_refl).
    rewrite !(proj2 (Ascii.eqb_neq c _)) by (intros ->; tauto). reflexivity.
  - destruct H as [<-|[<-|[]]]; reflexivity.
  - destruct H as [<-|[<-|[]]]; reflexivity.
  - destruct H as [<-|[<-|[]]]; reflexivity.
  - cbn [In] in H. cbn -[is_char]. change (is_char 255 "013" || is_char 4 "013") with false. cbn -[is_char]. change (is_char 8 "013" || is_char 127 "013") with false. change (is_char 12 "013") with false. change (is_char 27 "013") with false. change (is_char 13 "013") with true. cbn -[is_char].
    rewrite (char_of 0 c "000" eq_refl), (char_of 10 c "010" eq_refl). rewrite !(proj2 (Ascii.eqb_neq c _)) by (intros ->; tauto). reflexivity.
  - cbn [outputs]. change (output "027" K1) with (K2, @nil key). cbn [output]. rewrite (char_of 91 c "[" eq_refl), (proj2 (Ascii.eqb_neq c _) H). reflexivity.
  - cbn [outputs esc]. change (output "027" K1) with (K2, @nil key). cbv beta iota. change (output "[" K2) with (K3, @nil key). cbv beta iota. rewrite (L c H). reflexivity.
  - cbn [outputs esc]. change (output "027" K1) with (K2, @nil key). cbv beta iota. change (output "[" K2) with (K3, @nil key). cbv beta iota. rewrite (L c H). cbn [output]. rewrite (char_of 126 d "~" eq_refl), (proj2 (Ascii.eqb_neq d _) Hd). reflexivity.
Qed.
Lemma part_run r : telnet_part r -> snd (outputs r K1) = [].
Proof.
  intros H. destruct H as [| | | |c H]; try reflexivity. unfold cursor_letters in H. cbn [lit list_ascii_of_string In] in H. cbn [outputs esc]. change (output "027" K1) with (K2, @nil key). cbv beta iota. change (output "[" K2) with (K3, @nil key). cbv beta iota. cbn [output].
  rewrite (char_of 65 c "A" eq_refl), (char_of 66 c "B" eq_refl), (char_of 67 c "C" eq_refl), (char_of 68 c "D" eq_refl), (char_of 70 c "F" eq_refl), (char_of 72 c "H" eq_refl).
  rewrite !(proj2 (Ascii.eqb_neq c _)) by (intros ->; tauto). reflexivity.
Qed.
Lemma seqs_run qs r : Forall (fun q => telnet_seq (fst q) (snd q)) qs -> telnet_part r -> snd (outputs (flat_map fst qs ++ r) K1) = map snd qs.
Proof.
  intros H Hr. induction H as [|[a k] qs Hq _ IH]; [exact (part_run r Hr)|]. cbn [flat_map fst map snd] in *. rewrite <- app_assoc, outputs_app, (seq_run a k Hq). destruct (outputs (flat_map fst qs ++ r) K1) as [s2 k2]. cbn [snd app] in *. rewrite IH. reflexivity.
Qed.

(** ** Commands inside negotiations *)
Lemma quiet_command c st : (byte_of c <= 240)%N -> (st = TSub -> c <> SE) -> exists o, on_data [FF; c] (mkTel st false) = (mkTel st false, o) /\ bytes_of o = [] /\ sent_of o = [].
Proof.
  intros Hc Hs. assert (Hn : forall d, (240 < byte_of d)%N -> Ascii.eqb c d = false) by (intros d Hd; rewrite eqb_byte; apply N.eqb_neq; lia).
  cbn [on_data]. unfold consume at 1. cbn [t_escape t_state]. change (Ascii.eqb FF IAC) with true. cbv iota beta. unfold consume. cbn [t_escape t_state]. rewrite (Hn IAC eq_refl). unfold t_command.
  replace (N.leb 241 (byte_of c) && N.leb (byte_of c) 249)%N with false by (symmetry; apply andb_false_iff; left; apply N.leb_gt; lia).
  rewrite (Hn SB eq_refl), (Hn WILL eq_refl), (Hn WONT eq_refl), (Hn DO eq_refl), (Hn DONT eq_refl).
  destruct (Ascii.eqb_spec c SE) as [->|He]; [|exists []; split; [reflexivity|split; reflexivity]].
  destruct st; try (exists [Diag]; split; [reflexivity|split; reflexivity]). exfalso. exact (Hs eq_refl eq_refl).
Qed.
Lemma quiet_commands cs st : Forall (fun c => (byte_of c <= 240)%N /\ (st = TSub -> c <> SE)) cs -> exists o, on_data (commands cs) (mkTel st false) = (mkTel st false, o) /\ bytes_of o = [] /\ sent_of o = [].
Proof.
  induction 1 as [|c cs (Hc & Hs) _ IH]; [exists []; split; [reflexivity|split; reflexivity]|]. unfold commands in *. cbn [flat_map]. rewrite on_data_app. destruct (quiet_command c st Hc Hs) as (o & -> & H1 & H2). destruct IH as (o' & -> & H3 & H4).
  exists (o ++ o'). split; [reflexivity|]. rewrite bytes_app, sent_app, H1, H2, H3, H4. split; reflexivity.
Qed.
Lemma negotiation_interrupted v opt cs : Forall (fun c => (byte_of c <= 240)%N) cs -> opt <> FF ->
  exists o, on_data ([FF; verb_code v] ++ commands cs ++ [opt]) idle = (idle, o) /\ bytes_of o = [] /\ sent_of o = sent_of (item_out (INeg v opt)).
Proof.
  intros Hc Ho. set (st := match v with Will => TWaitWill | Wont => TWaitWont | Do => TWaitDo | Dont => TWaitDont end).
  assert (H1 : on_data [FF; verb_code v] idle = (mkTel st false, [])) by (destruct v; reflexivity). rewrite on_data_app, H1, on_data_app.
  destruct (quiet_commands cs st) as (o & -> & H2 & H3). { revert Hc. apply Forall_impl. intros c H. split; [exact H|]. destruct v; discriminate. }
  assert (H4 : on_data [opt] (mkTel st false) = (idle, item_out (INeg v opt))).
  { cbn [on_data]. unfold consume. cbn [t_escape t_state]. rewrite (proj2 (Ascii.eqb_neq opt IAC) Ho). destruct v; reflexivity. }
  rewrite H4. exists (o ++ item_out (INeg v opt)). split; [reflexivity|]. rewrite bytes_app, sent_app, H2, H3. split; [|reflexivity].
  pose proof (bytes_items [INeg v opt]) as H5. cbn [flat_map] in H5. rewrite app_nil_r in H5. rewrite H5. reflexivity.
Qed.
