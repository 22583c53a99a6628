From Verif Require Import Base FromStringModel MenuModel SessionModel CompletionModel CompletionSpec CompletionProofs FloatModel FloatSpec FloatProofs LocaleModel LocaleSpec.
Open Scope nat_scope.
Open Scope list_scope.

Section Locale.
Context (L : locale) (P : platform) (HL : usual L).

(** ** White characters *)
Lemma isspace_same c : (char_signed P = true \/ ~ extra_white L c) -> l_isspace L P c = c_isspace P c.
Proof.
  intros H. destruct HL as (Ha & H255 & _). unfold l_isspace, c_isspace, ctype_ok in *. unfold extra_white in H.
  pose proof (code_range c) as Hr. specialize (Ha c). rewrite white_space in *.
  destruct (char_signed P) eqn:Hs; cbn [negb orb andb].
  - destruct (Z.ltb_spec (code c) 128) as [Hc|Hc]; cbn [orb].
    + rewrite (Ha Hc). destruct (Z.eqb_spec (code c) 255); [lia|]. rewrite Bool.andb_true_r. reflexivity.
    + destruct (Z.eqb_spec (code c) 255) as [Hd|Hd]; [|reflexivity].
      cbn [negb]. rewrite Bool.andb_false_r. f_equal. unfold space_code. symmetry. lia.
  - destruct H as [H|H]; [discriminate|]. rewrite Bool.andb_true_r. f_equal.
    destruct (Z.ltb_spec (code c) 128) as [Hc|Hc]; [exact (Ha Hc)|].
    destruct (lc_space L c); [|unfold space_code; lia].
    destruct (space_code c) eqn:Hw; [reflexivity|]. exfalso. apply H. split; reflexivity.
Qed.
Definition same_white (s : str) : Prop := char_signed P = true \/ Forall (fun c => ~ extra_white L c) s.
Lemma same_cons c s : same_white (c :: s) -> (char_signed P = true \/ ~ extra_white L c) /\ same_white s.
Proof. intros [H|H]; [split; left; exact H|]. inversion H; subst. split; right; assumption. Qed.
Lemma same_skipn n : forall s, same_white s -> same_white (skipn n s).
Proof. induction n as [|n IH]; intros [|c s] H; try exact H. cbn [skipn]. apply IH. apply same_cons in H. apply H. Qed.
Lemma trim_same s : same_white s -> l_trim L P s = trim_left P s /\ forall r, trim_left P s = Some r -> same_white r.
Proof.
  induction s as [|c s IH]; intros H; cbn [l_trim trim_left].
  - split; [reflexivity|]. intros r Hr. injection Hr as <-. exact H.
  - pose proof (same_cons c s H) as (H1 & H2). rewrite (isspace_same c H1). specialize (IH H2).
    destruct (c_isspace P c) as [[|]|]; [exact IH| |].
    + split; [reflexivity|]. intros r Hr. injection Hr as <-. exact H.
    + split; [reflexivity|discriminate].
Qed.

Lemma all_ext (f g : cmd -> gres) ks : (forall k, f k = g k) -> g_all f ks = g_all g ks.
Proof. intros H. induction ks as [|k ks IH]; [reflexivity|]. cbn [g_all]. rewrite H, IH. reflexivity. Qed.
Lemma completion_same n : forall up line ctx, same_white line -> l_completion L P n up line ctx = menu_completion P n up line ctx.
Proof.
  induction n as [|n IH]; intros up line ctx H; [reflexivity|]. cbn [l_completion menu_completion].
  destruct ctx as [|[| |i nm e d pr ks] anc]; try reflexivity.
  assert (Hin : forall prefix,
    match l_trim L P (skipn (length prefix) line) with
    | None => GUB
    | Some rest => g_map (map (fun c => prefix ++ " "%char :: c)) (g_app
        (g_all (fun k => match k with CMenu _ _ _ _ _ _ => l_completion L P n false rest (k :: CMenu i nm e d pr ks :: anc) | _ => GOk (name_completion k rest) end) ks)
        (match anc with [] => GOk [] | _ => l_completion L P n true rest anc end))
    end =
    match trim_left P (skipn (length prefix) line) with
    | None => GUB
    | Some rest => g_map (map (fun c => prefix ++ " "%char :: c)) (g_app
        (g_all (fun k => match k with CMenu _ _ _ _ _ _ => menu_completion P n false rest (k :: CMenu i nm e d pr ks :: anc) | _ => GOk (name_completion k rest) end) ks)
        (match anc with [] => GOk [] | _ => menu_completion P n true rest anc end))
    end).
  { intros prefix. destruct (trim_same (skipn (length prefix) line) (same_skipn _ _ H)) as (-> & Hr).
    destruct (trim_left P (skipn (length prefix) line)) as [rest|]; [|reflexivity]. specialize (Hr rest eq_refl).
    f_equal. f_equal.
    - apply all_ext. intros [| |]; try reflexivity. apply IH. exact Hr.
    - destruct anc; [reflexivity|]. apply IH. exact Hr. }
  destruct (starts_with nm line); [apply Hin|]. destruct (up && starts_with (lit "..") line); [apply Hin|reflexivity].
Qed.
Lemma completions_same n line ctx : same_white line -> l_completions L P n line ctx = menu_completions P n line ctx.
Proof.
  intros H. destruct ctx as [|m anc]; [reflexivity|]. cbn [l_completions menu_completions]. f_equal.
  - apply all_ext. intros [| |]; try reflexivity. apply completion_same. exact H.
  - destruct anc; [reflexivity|]. apply completion_same. exact H.
Qed.
Lemma get_same fuel line w : same_white line -> l_get_completions L P fuel line w = get_completions P fuel line w.
Proof.
  intros H. unfold l_get_completions, get_completions. destruct (trim_same line H) as (-> & Hr).
  destruct (trim_left P line) as [l|]; [|reflexivity]. specialize (Hr l eq_refl). rewrite completions_same by exact Hr.
  destruct (locate (w_cur w) [] (w_root w)); [|reflexivity]. rewrite completions_same by exact Hr. reflexivity.
Qed.

(** ** Numbers *)
Notation d := (lc_point L).
Notation ex := (exchange (lc_point L)).
Lemma point_facts : (code d < 128)%Z /\ space_code d = false /\ ~ number_char d.
Proof. destruct HL as (_ & _ & H1 & H2 & H3). rewrite white_space in H2. auto. Qed.
Lemma ex_cases c : (c = d /\ ex c = "."%char) \/ (c <> d /\ c = "."%char /\ ex c = d) \/ (c <> d /\ c <> "."%char /\ ex c = c).
Proof.
  unfold exchange. destruct (Ascii.eqb_spec c d); [left; auto|]. destruct (Ascii.eqb_spec c "."); [right; left; auto|right; right; auto].
Qed.
Lemma ex_eqb c x : x <> "."%char -> x <> d -> Ascii.eqb (ex c) x = Ascii.eqb c x.
Proof.
  intros H1 H2. destruct (ex_cases c) as [(-> & ->)|[(H & -> & ->)|(_ & _ & ->)]]; [| |reflexivity].
  - destruct (Ascii.eqb_spec "." x); [congruence|]. destruct (Ascii.eqb_spec d x); [congruence|reflexivity].
  - destruct (Ascii.eqb_spec "." x); [congruence|]. destruct (Ascii.eqb_spec d x); [congruence|reflexivity].
Qed.
Lemma ex_point c : Ascii.eqb (ex c) "." = Ascii.eqb c d.
Proof.
  destruct (ex_cases c) as [(-> & ->)|[(H & -> & ->)|(H1 & H2 & ->)]].
  - rewrite !Ascii.eqb_refl. reflexivity.
  - destruct (Ascii.eqb_spec "." d) as [E|E]; [congruence|]. destruct (Ascii.eqb_spec d "."); [congruence|reflexivity].
  - destruct (Ascii.eqb_spec c "."); [congruence|]. destruct (Ascii.eqb_spec c d); [congruence|reflexivity].
Qed.
Lemma number_not x : number_char x -> x <> "."%char /\ x <> d.
Proof.
  intros H. split; [|intros ->; destruct point_facts as (_ & _ & Hn); contradiction].
  intros ->. destruct H as [H|[H|[H|H]]]; try (vm_compute in H; intuition congruence).
Qed.
Lemma not_number_dig c : ~ number_char c -> dec_dig c = None /\ hex_dig c = None /\ n_char c = false /\ lower c = c.
Proof.
  intros H. unfold number_char in H. unfold dec_dig, hex_dig, n_char, lower.
  assert (H1 : ((48 <=? code c)%Z && (code c <=? 57)%Z = false)%bool) by lia.
  assert (H2 : ((65 <=? code c)%Z && (code c <=? 90)%Z = false)%bool) by lia.
  assert (H3 : ((97 <=? code c)%Z && (code c <=? 122)%Z = false)%bool) by lia.
  rewrite H1, H2. assert (H4 : ((97 <=? code c)%Z && (code c <=? 102)%Z = false)%bool) by lia.
  assert (H5 : ((65 <=? code c)%Z && (code c <=? 70)%Z = false)%bool) by lia. rewrite H4, H5, H3.
  destruct (Ascii.eqb_spec c "_") as [->|]; [|auto]. exfalso. apply H. right. right. right. cbn. auto.
Qed.
Lemma dot_not : ~ number_char ".".
Proof. intros H. apply number_not in H. destruct H as (H & _). apply H. reflexivity. Qed.
Lemma ex_same {A} (f : ascii -> A) c : f d = f "."%char -> f (ex c) = f c.
Proof. intros H. destruct (ex_cases c) as [(-> & ->)|[(_ & -> & ->)|(_ & _ & ->)]]; auto. Qed.
Lemma ex_dec c : dec_dig (ex c) = dec_dig c.
Proof. apply (ex_same dec_dig). rewrite (proj1 (not_number_dig d (proj2 (proj2 point_facts)))). reflexivity. Qed.
Lemma ex_hex c : hex_dig (ex c) = hex_dig c.
Proof. apply (ex_same hex_dig). rewrite (proj1 (proj2 (not_number_dig d (proj2 (proj2 point_facts))))). reflexivity. Qed.
Lemma ex_n c : n_char (ex c) = n_char c.
Proof. apply (ex_same n_char). rewrite (proj1 (proj2 (proj2 (not_number_dig d (proj2 (proj2 point_facts)))))). reflexivity. Qed.
Lemma ex_lower c x : number_char x -> Ascii.eqb (lower (ex c)) x = Ascii.eqb (lower c) x.
Proof.
  intros Hx. apply (ex_same (fun c => Ascii.eqb (lower c) x)). apply number_not in Hx as (H1 & H2).
  rewrite (proj2 (proj2 (proj2 (not_number_dig d (proj2 (proj2 point_facts)))))). change (lower "."%char) with "."%char.
  destruct (Ascii.eqb_spec d x); [congruence|]. destruct (Ascii.eqb_spec "." x); [congruence|reflexivity].
Qed.
Lemma ex_num c x : number_char x -> Ascii.eqb (ex c) x = Ascii.eqb c x.
Proof. intros Hx. apply number_not in Hx as (H1 & H2). apply ex_eqb; assumption. Qed.

Notation mex := (exchanged (lc_point L)).
Lemma scan_ex dig : (forall c, dig (ex c) = dig c) -> forall s, scan dig (mex s) = (fst (scan dig s), mex (snd (scan dig s))).
Proof.
  intros Hd. induction s as [|c s IH]; [reflexivity|]. cbn [exchanged map scan]. rewrite Hd. destruct (dig c) as [v|]; [|reflexivity].
  fold (mex s). rewrite IH. destruct (scan dig s) as (ds & r). reflexivity.
Qed.
Lemma mantissa_ex dig s : (forall c, dig (ex c) = dig c) ->
  mantissa dig (mex s) = option_map (fun '(ds, n, r) => (ds, n, mex r)) (l_mantissa L dig s).
Proof.
  intros Hd. unfold mantissa, l_mantissa. rewrite (scan_ex dig Hd s). destruct (scan dig s) as (ip & r1). cbn [fst snd].
  destruct r1 as [|c r]; cbn [exchanged map]; [destruct (ip ++ []); reflexivity|]. rewrite ex_point. destruct (Ascii.eqb c d).
  - fold (mex r). rewrite (scan_ex dig Hd r). destruct (scan dig r) as (fp & r2). cbn [fst snd]. destruct (ip ++ fp); reflexivity.
  - destruct (ip ++ []); reflexivity.
Qed.
Lemma sign_ex s : scan_sign (mex s) = (fst (scan_sign s), mex (snd (scan_sign s))).
Proof.
  destruct s as [|c s]; [reflexivity|]. cbn [exchanged map scan_sign].
  rewrite (ex_num c "-"), (ex_num c "+") by (right; right; right; cbn; auto).
  destruct (Ascii.eqb c "-"); [reflexivity|]. destruct (Ascii.eqb c "+"); reflexivity.
Qed.
Lemma exponent_ex lo up s : number_char lo -> number_char up -> exponent lo up (mex s) = (fst (exponent lo up s), mex (snd (exponent lo up s))).
Proof.
  intros H1 H2. destruct s as [|c s]; [reflexivity|]. cbn [exchanged map exponent]. rewrite (ex_num c lo H1), (ex_num c up H2).
  destruct (Ascii.eqb c lo || Ascii.eqb c up); [|reflexivity]. fold (mex s). rewrite sign_ex. destruct (scan_sign s) as (neg & r1). cbn [fst snd].
  rewrite (scan_ex dec_dig ex_dec r1). destruct (scan dec_dig r1) as (ds & r2). cbn [fst snd]. destruct ds; reflexivity.
Qed.
Lemma word_ex w : Forall number_char w -> forall s, word w (mex s) = option_map mex (word w s).
Proof.
  induction 1 as [|x w Hx _ IH]; intros s; [reflexivity|]. destruct s as [|c s]; [reflexivity|]. cbn [exchanged map word].
  rewrite (ex_lower c x Hx). destruct (Ascii.eqb (lower c) x); [|reflexivity]. apply IH.
Qed.
Lemma skip_ex s : skip_n_chars (mex s) = mex (skip_n_chars s).
Proof. induction s as [|c s IH]; [reflexivity|]. cbn [exchanged map skip_n_chars]. rewrite ex_n. destruct (n_char c); [exact IH|reflexivity]. Qed.
Lemma letters_number w : forallb (fun c => (97 <=? code c)%Z && (code c <=? 122)%Z) w = true -> Forall number_char w.
Proof. intros H. apply Forall_forall. intros x Hx. rewrite forallb_forall in H. specialize (H x Hx). right. right. left. lia. Qed.
Lemma hexadecimal_ex s : hexadecimal (mex s) = option_map (fun '(g, r) => (g, mex r)) (l_hexadecimal L s).
Proof.
  destruct s as [|z [|x r]]; try reflexivity. cbn [exchanged map hexadecimal l_hexadecimal].
  rewrite (ex_num z "0") by (left; vm_compute; split; discriminate). rewrite (ex_lower x "x") by (right; right; left; vm_compute; split; discriminate).
  destruct (Ascii.eqb z "0" && Ascii.eqb (lower x) "x"); [|reflexivity]. fold (mex r). rewrite (mantissa_ex hex_dig r ex_hex).
  destruct (l_mantissa L hex_dig r) as [((ds & n) & r1)|]; [|reflexivity]. cbn [option_map].
  rewrite exponent_ex by (right; first [left; vm_compute; split; discriminate|right; left; vm_compute; split; discriminate]).
  destruct (exponent "p" "P" r1); reflexivity.
Qed.
Lemma magnitude_ex s : magnitude_of (mex s) = option_map (fun '(g, r) => (g, mex r)) (l_magnitude L s).
Proof.
  unfold magnitude_of, l_magnitude.
  rewrite (word_ex (lit "infinity")), (word_ex (lit "inf")), (word_ex (lit "nan")) by (apply letters_number; reflexivity).
  destruct (word (lit "infinity") s); [reflexivity|]. cbn [option_map]. destruct (word (lit "inf") s); [reflexivity|]. cbn [option_map].
  destruct (word (lit "nan") s) as [r|]; cbn [option_map].
  - f_equal. f_equal. destruct r as [|c r1]; [reflexivity|]. cbn [exchanged map]. rewrite (ex_num c "(") by (right; right; right; cbn; auto).
    destruct (Ascii.eqb c "("); [|reflexivity]. fold (mex r1). rewrite skip_ex. destruct (skip_n_chars r1) as [|e r2]; [reflexivity|].
    cbn [exchanged map]. rewrite (ex_num e ")") by (right; right; right; cbn; auto 6). destruct (Ascii.eqb e ")"); reflexivity.
  - rewrite hexadecimal_ex. destruct (l_hexadecimal L s) as [(g & r)|]; [reflexivity|]. cbn [option_map].
    rewrite (mantissa_ex dec_dig s ex_dec). destruct (l_mantissa L dec_dig s) as [((ds & n) & r1)|]; [|reflexivity]. cbn [option_map].
    rewrite exponent_ex by (right; first [left; vm_compute; split; discriminate|right; left; vm_compute; split; discriminate]).
    destruct (exponent "e" "E" r1); reflexivity.
Qed.
Lemma mex_length s : length (mex s) = length s.
Proof. apply map_length. Qed.
Lemma sto_ex f s : c_sto f (mex s) = l_sto L f s.
Proof.
  unfold c_sto, l_sto. rewrite sign_ex. destruct (scan_sign s) as (neg & r). cbn [fst snd]. rewrite magnitude_ex.
  destruct (l_magnitude L r) as [(g & rest)|]; [|reflexivity]. cbn [option_map]. rewrite !mex_length. reflexivity.
Qed.

(** Only ASCII characters occur in numbers. *)
Lemma word_char_ascii c : word_char c -> (code c < 128)%Z.
Proof. intros [H|[H|[H| ->]]]; try lia. reflexivity. Qed.
Lemma numeral_ascii (dig : ascii -> Z -> Prop) b s v : (forall c x, dig c x -> (code c < 128)%Z) -> numeral dig b s v -> Forall (fun c => (code c < 128)%Z) s.
Proof. intros Hd. induction 1; constructor; eauto. Qed.
Lemma digit_ascii c x : FromStringSpec.is_digit c x -> (code c < 128)%Z.
Proof. intros H. apply dec_dig_spec in H. unfold dec_dig in H. destruct ((48 <=? code c)%Z && (code c <=? 57)%Z) eqn:E; [lia|discriminate]. Qed.
Lemma hex_ascii c x : is_hex c x -> (code c < 128)%Z.
Proof.
  intros H. apply hex_dig_spec in H. unfold hex_dig in H. destruct ((48 <=? code c)%Z && (code c <=? 57)%Z) eqn:E1; [lia|].
  destruct ((97 <=? code c)%Z && (code c <=? 102)%Z) eqn:E2; [lia|]. destruct ((65 <=? code c)%Z && (code c <=? 70)%Z) eqn:E3; [lia|discriminate].
Qed.
Lemma pointed_ascii (dig : ascii -> Z -> Prop) b s v n : (forall c x, dig c x -> (code c < 128)%Z) -> pointed dig b s v n -> Forall (fun c => (code c < 128)%Z) s.
Proof.
  intros Hd [s' v' _ H|s' t v' _ H].
  - eapply numeral_ascii; eassumption.
  - apply numeral_ascii in H; [|exact Hd]. apply Forall_app in H as (H1 & H2). apply Forall_app. split; [exact H1|]. constructor; [reflexivity|exact H2].
Qed.
Lemma exp_ascii cs t e : Forall (fun c => (code c < 128)%Z) cs -> exp_text cs t e -> Forall (fun c => (code c < 128)%Z) t.
Proof.
  intros Hc [|c sg neg s v Hin Hs _ Hn]; [constructor|]. constructor; [rewrite Forall_forall in Hc; apply Hc; exact Hin|].
  apply Forall_app. split; [destruct Hs; repeat constructor|]. apply numeral_ascii in Hn; [exact Hn|exact digit_ascii].
Qed.
Lemma case_ascii w s : Forall (fun c => (code c < 128)%Z) w -> any_case w s -> Forall (fun c => (code c < 128)%Z) s.
Proof. intros Hw H. induction H as [|x c w s Hx _ IH]; [constructor|]. inversion Hw; subst. constructor; [destruct Hx as [->|]; [assumption|lia]|apply IH; assumption]. Qed.
Lemma real_ascii t g : unsigned_real t g -> Forall (fun c => (code c < 128)%Z) t.
Proof.
  intros [s t' v n e Hp He|x s t' v n e Hx Hp He|s [Hc|Hc]|s Hc|s t' Hc Ht].
  - apply Forall_app. split; [eapply pointed_ascii; [exact digit_ascii|exact Hp]|]. eapply exp_ascii; [|exact He]. repeat constructor.
  - constructor; [reflexivity|]. constructor; [cbn in Hx; destruct Hx as [<-|[<-|[]]]; reflexivity|].
    apply Forall_app. split; [eapply pointed_ascii; [exact hex_ascii|exact Hp]|]. eapply exp_ascii; [|exact He]. repeat constructor.
  - eapply case_ascii; [|exact Hc]. repeat constructor.
  - eapply case_ascii; [|exact Hc]. repeat constructor.
  - eapply case_ascii; [|exact Hc]. repeat constructor.
  - apply Forall_app. split; [eapply case_ascii; [|exact Hc]; repeat constructor|]. constructor; [reflexivity|].
    apply Forall_app. split; [eapply Forall_impl; [|exact Ht]; apply word_char_ascii|repeat constructor].
Qed.
Lemma whole_ascii f s v : c_sto f s = Some (v, length s) -> Forall (fun c => (code c < 128)%Z) s.
Proof.
  unfold c_sto. destruct (scan_sign s) as (neg & r) eqn:Hs. apply scan_sign_inv in Hs as (sg & -> & Hsg).
  destruct (magnitude_of r) as [(g & rest)|] eqn:Hm; [|discriminate]. destruct (convert f neg g); [|discriminate]. intros H. injection H as _ H.
  assert (Hrest : rest = [] \/ r = []).
  { destruct rest as [|c rest]; [left; reflexivity|]. rewrite app_length in H. cbn [length] in H. right. destruct r; [reflexivity|]. exfalso.
    cbn [length] in H. lia. }
  assert (Hsgn : Forall (fun c => (code c < 128)%Z) sg) by (destruct Hsg; repeat constructor).
  apply Forall_app. split; [exact Hsgn|]. destruct Hrest as [->| ->]; [|constructor]. apply (real_ascii r g), magnitude_inv, Hm.
Qed.

Lemma any_l s : match l_any_space L P s with
  | None => any_space P (mex s) = None
  | Some true => any_space P (mex s) = Some true \/ ((char_signed P = false /\ ~ Forall (fun c => (code c < 128)%Z) (mex s)))
  | Some false => any_space P (mex s) = Some false
  end.
Proof.
  induction s as [|c s IH]; [reflexivity|]. cbn [l_any_space exchanged map any_space]. fold (mex s).
  destruct point_facts as (Hp1 & Hp2 & _).
  assert (Hex : l_isspace L P (ex c) = l_isspace L P c /\ ((code (ex c) < 128)%Z <-> (code c < 128)%Z)).
  { assert (Hd : l_isspace L P d = Some false).
    { rewrite isspace_same by (right; intros (H1 & H2); destruct HL as (Ha & _); rewrite (Ha d Hp1) in H1; congruence).
      unfold c_isspace, ctype_ok. destruct (Z.ltb_spec (code d) 128); [|lia]. rewrite Bool.orb_true_r. cbn [orb]. rewrite Hp2. reflexivity. }
    assert (Hdot : l_isspace L P "." = Some false).
    { rewrite isspace_same by (right; intros (H1 & H2); destruct HL as (Ha & _); rewrite (Ha "."%char eq_refl) in H1; discriminate).
      unfold c_isspace, ctype_ok. cbn. rewrite Bool.orb_true_r. reflexivity. }
    destruct (ex_cases c) as [(-> & ->)|[(_ & -> & ->)|(_ & _ & ->)]]; [| |split; [reflexivity|tauto]].
    - split; [congruence|]. split; intros _; [exact Hp1|reflexivity].
    - split; [congruence|]. split; intros _; [reflexivity|exact Hp1]. }
  destruct Hex as (Hex & Hlt). rewrite <- Hex. set (c' := ex c) in *. clearbody c'. clear Hex Hlt c.
  destruct (char_signed P) eqn:Hs.
  - rewrite isspace_same by (left; exact Hs). destruct (c_isspace P c') as [[|]|]; [left; reflexivity| |reflexivity].
    destruct (l_any_space L P s) as [[|]|]; try exact IH. destruct IH as [IH|(IH & _)]; [left; exact IH|discriminate].
  - destruct (lc_space L c') eqn:Hw.
    + assert (Hl : l_isspace L P c' = Some true) by (unfold l_isspace, ctype_ok; rewrite Hs, Hw; reflexivity). rewrite Hl.
      destruct (space_code c') eqn:Hc.
      * left. unfold c_isspace, ctype_ok. rewrite Hs, Hc. reflexivity.
      * right. split; [reflexivity|]. intros H. inversion H as [|? ? H1 _]; subst. destruct HL as (Ha & _). specialize (Ha c' H1).
        rewrite white_space in Ha. congruence.
    + rewrite isspace_same by (right; intros (H1 & _); congruence).
      assert (Hl : c_isspace P c' = Some false).
      { rewrite <- isspace_same by (right; intros (H1 & _); congruence). unfold l_isspace, ctype_ok. rewrite Hs, Hw. reflexivity. }
      rewrite Hl. destruct (l_any_space L P s) as [[|]|]; try exact IH. destruct IH as [IH|(_ & IH)]; [left; exact IH|right].
      split; [reflexivity|]. intros H. inversion H; subst. apply IH. assumption.
Qed.
Lemma real_ex f s : l_real L P f s = real_from_string P f (mex s).
Proof.
  unfold l_real, real_from_string, float_from_string. pose proof (any_l s) as H. rewrite sto_ex, mex_length.
  destruct (l_any_space L P s) as [[|]|]; [|rewrite H; reflexivity|rewrite H; reflexivity].
  destruct H as [H|(Hs & H)]; [rewrite H; reflexivity|].
  destruct (any_space P (mex s)) as [[|]|] eqn:Ha; [reflexivity| |].
  - destruct (l_sto L f s) as [(r & sz)|] eqn:Hl; [|reflexivity]. destruct (Nat.eqb_spec sz (length s)) as [->|]; [|reflexivity].
    exfalso. apply H. rewrite <- sto_ex in Hl. rewrite <- (mex_length s) in Hl. exact (whole_ascii f (mex s) r Hl).
  - exfalso. clear - Ha Hs. revert Ha. induction (mex s) as [|c s' IH]; cbn [any_space]; [discriminate|].
    assert (Hc : c_isspace P c = Some (space_code c)) by (unfold c_isspace, ctype_ok; rewrite Hs; reflexivity). rewrite Hc.
    destruct (space_code c); [discriminate|exact IH].
Qed.
End Locale.
