(** * Proofs: remembered lines and completions in the example program complete.cpp *)

From Coq Require Import Sorted.
From Verif Require Import Base SplitModel SplitSpec FromStringModel FromStringSpec FromStringProofs PrefixSpec PrefixModel PrefixProofs HistoryModel HistorySpec TerminalModel TerminalSpec MenuModel SessionModel SessionSpec
  TreeProofs CompletionModel CompletionSpec CompletionProofs ProcessorModel ExampleSpec ExampleProofs CompleteModel CompleteSpec CompleteProofs WholeModel WholeSpec.
Open Scope nat_scope.
Open Scope list_scope.

(** ** Remembered lines *)
Definition hist_at (size : nat) (u : user) (page : option (str * nat)) : history :=
  match page with
  | None => hist_of size u
  | Some (t, n) => mkHistory size (t :: rev (u_lines u)) n (u_typed u) true (u_first u)
  end.
Definition page_ok (size : nat) (u : user) (page : option (str * nat)) : Prop :=
  match page with None => True | Some (_, n) => S (length (u_lines u)) <= size /\ n <= length (u_lines u) end.
Lemma new_at size u page line : 1 <= size -> page_ok size u page -> new_command (hist_at size u page) line = Some (hist_of size (keeps size line u)).
Proof.
  intros Hs Hp. destruct page as [(t & n)|]; [|apply new_keeps, Hs]. destruct Hp as (Hp & _). unfold new_command, keeps, hist_at. cbn [h_browse h_buf h_max h_cmds h_oldest h_cur].
  destruct (rev (u_lines u)) as [|last r] eqn:Hr; [reflexivity|]. destruct (str_eqb last line) eqn:He.
  - apply str_eqb_eq in He. subst last. destruct (list_eq_dec ascii_dec line line); [|congruence]. unfold hist_of. cbn. rewrite Hr. reflexivity.
  - destruct (list_eq_dec ascii_dec last line) as [->|]; [rewrite str_eqb_refl in He; discriminate|].
    destruct (Nat.ltb_spec size (S (length (u_lines u)))); [lia|]. unfold hist_of. cbn. rewrite rev_app_distr, Hr. reflexivity.
Qed.
Lemma commands_at size u page : get_commands (hist_at size u page) = Some (lastn (u_typed u) (u_lines u)).
Proof.
  destruct page as [(t & n)|]; [|apply commands_hist]. pose proof (commands_hist size u) as H. unfold get_commands, hist_of in *. cbn [hist_at h_browse h_buf h_cmds length] in *. rewrite <- H.
  replace (S (length (rev (u_lines u))) - 1) with (length (rev (u_lines u))) by lia. reflexivity.
Qed.
Lemma set_replaced n s l : n < length l -> set_nth n s l = Some (replaced n s l).
Proof. revert n. induction l as [|x l IH]; intros [|n] H; cbn in *; try lia; [reflexivity|]. rewrite IH by lia. reflexivity. Qed.
Lemma replaced_length n s l : length (replaced n s l) = length l.
Proof. revert n. induction l as [|x l IH]; intros [|n]; cbn; auto. Qed.
Lemma replaced_all (Q : str -> Prop) n s l : Q s -> Forall Q l -> Forall Q (replaced n s l).
Proof. intros Hs H. revert n. induction H as [|x l Hx H IH]; intros [|n]; cbn; constructor; auto. Qed.
Lemma turned_up size u page s : 1 <= size -> length (u_lines u) <= size -> page_ok size u page ->
  let (u', pg) := turn_up size s u page in let (t, n) := pg in
  previous (hist_at size u page) s = Some (line_back u' t n, hist_at size u' (Some (t, n))) /\ page_ok size u' (Some (t, n)) /\ u_place u' = u_place u.
Proof.
  intros Hs Hl Hp. destruct page as [(t & [|n])|]; cbn [turn_up].
  - destruct Hp as (Hp & _). unfold previous. cbn [hist_at h_browse h_buf h_cur set_nth h_max h_cmds h_oldest length]. rewrite rev_length. replace (S (length (u_lines u)) - 1) with (length (u_lines u)) by lia.
    split; [|split; [cbn [page_ok]; split; [exact Hp|apply Nat.le_min_r]|reflexivity]]. destruct (length (u_lines u)) as [|m] eqn:Hm.
    + reflexivity.
    + cbn [Nat.eqb Nat.min]. cbn [h_buf h_cur]. unfold line_back. assert (Hlt : 1 < length (s :: rev (u_lines u))) by (cbn [length]; rewrite rev_length; lia).
      rewrite (nth_error_nth' _ [] Hlt). reflexivity.
  - destruct Hp as (Hp & Hn). unfold previous. cbn [hist_at h_browse h_buf h_cur set_nth h_max h_cmds h_oldest length].
    rewrite set_replaced by (rewrite rev_length; lia). cbn [option_map length]. rewrite replaced_length, rev_length. replace (S (length (u_lines u)) - 1) with (length (u_lines u)) by lia.
    assert (Hlen : length (u_lines (rewrites n s u)) = length (u_lines u)) by (cbn; rewrite rev_length, replaced_length, rev_length; reflexivity).
    replace (if Nat.eqb (S n) (length (u_lines u)) then S n else S (S n)) with (Nat.min (S (S n)) (length (u_lines u))) by (destruct (Nat.eqb_spec (S n) (length (u_lines u))); lia).
    split; [|split; [cbn [page_ok]; rewrite Hlen; split; [exact Hp|apply Nat.le_min_r]|reflexivity]]. cbn [h_buf h_cur]. unfold line_back. cbn [hist_at rewrites u_lines u_typed u_first].
    rewrite rev_involutive. assert (Hlt : Nat.min (S (S n)) (length (u_lines u)) < length (t :: replaced n s (rev (u_lines u)))) by (cbn [length]; rewrite replaced_length, rev_length; lia).
    rewrite (nth_error_nth' _ [] Hlt). reflexivity.
  - assert (Hr : exists u', u' = makes_room size u /\ u_place u' = u_place u /\ S (length (u_lines u')) <= size /\
      insert (hist_of size u) s = mkHistory size (s :: rev (u_lines u')) 0 (u_typed u') false (u_first u')).
    { eexists. split; [reflexivity|]. unfold makes_room, insert. cbn [hist_of h_max h_buf h_cur h_cmds h_browse h_oldest length]. rewrite rev_length. destruct (Nat.ltb_spec (length (u_lines u)) size).
      - destruct (Nat.ltb_spec size (S (length (u_lines u)))); [lia|]. split; [reflexivity|]. split; [lia|reflexivity].
      - destruct (Nat.ltb_spec size (S (length (u_lines u)))); [|lia]. split; [reflexivity|]. cbn [u_lines u_typed u_first]. destruct (u_lines u) as [|a r]; [cbn in *; lia|]. cbn [tl length] in *. split; [lia|].
        cbn [rev]. f_equal. change (s :: rev r ++ [a]) with ((s :: rev r) ++ [a]). apply removelast_last. }
    destruct Hr as (u' & <- & Hpl & Hsz & Hins). unfold previous. change (h_browse (hist_at size u None)) with false. cbn beta iota. change (hist_at size u None) with (hist_of size u). rewrite Hins. cbn [h_buf h_max h_cur h_cmds h_oldest length].
    rewrite rev_length. replace (if Nat.ltb 1 (S (length (u_lines u'))) then 1 else 0) with (Nat.min 1 (length (u_lines u'))) by (destruct (Nat.ltb_spec 1 (S (length (u_lines u')))); lia).
    split; [|split; [cbn [page_ok]; split; [exact Hsz|apply Nat.le_min_r]|exact Hpl]]. unfold line_back. cbn [hist_at]. assert (Hlt : Nat.min 1 (length (u_lines u')) < length (s :: rev (u_lines u'))) by (cbn [length]; rewrite rev_length; lia).
    rewrite (nth_error_nth' _ [] Hlt). reflexivity.
Qed.
Lemma turned_down size u page : page_ok size u page -> let (s, pg) := turn_down u page in
  next (hist_at size u page) = Some (s, hist_at size u pg) /\ page_ok size u pg.
Proof.
  intros Hp. destruct page as [(t & [|n])|]; cbn [turn_down].
  - split; [reflexivity|exact Hp].
  - destruct Hp as (Hp & Hn). split; [|cbn; lia]. unfold next. cbn [hist_at h_buf h_cur h_max h_cmds h_browse h_oldest].
    assert (Hlt : n < length (t :: rev (u_lines u))) by (cbn [length]; rewrite rev_length; lia). rewrite (nth_error_nth' _ [] Hlt). reflexivity.
  - split; [|exact Logic.I]. unfold next. cbn [hist_at hist_of h_buf h_cur]. destruct (rev (u_lines u)); reflexivity.
Qed.
(** A line that is not blank is handled as if no remembered line were looked at. *)
Lemma feed_at E n size u page line w : 1 <= size -> page_ok size u page -> w_hist w = hist_at size u page -> ~ words line [] ->
  feed E (S n) line w = feed E (S n) line (set_hist (hist_of size u) w).
Proof.
  intros Hs Hp Hw Hb. cbn [feed]. unfold feed_body. destruct (split line) as [[|t toks]|] eqn:Ht; try reflexivity; [apply words_split in Ht; contradiction|].
  cbn [set_hist w_hist]. rewrite Hw, (new_at _ _ _ _ Hs Hp). change (hist_of size u) with (hist_at size u None). rewrite (new_at _ _ None _ Hs Logic.I). reflexivity.
Qed.
Lemma feed_blank E n line w : words line [] -> feed E (S n) line w = FOk w.
Proof. intros H. apply words_split in H. cbn [feed]. unfold feed_body. rewrite H. reflexivity. Qed.

(** ** Completions *)
Lemma sub_ctx c g : cctx c g Sub = cx_sub :: cctx c g Main.
Proof. reflexivity. Qed.
Lemma root_ids c g : unique_ids (root_of c g).
Proof. unfold unique_ids. destruct c, g; cbv; repeat constructor; cbn; intuition discriminate. Qed.
Lemma root_chains c g m anc : chain (root_of c g) (m :: anc) -> exists p, m :: anc = cctx c g p.
Proof.
  intros H. remember (m :: anc) as ctx eqn:Hc. revert m anc Hc. induction H as [Hm|k p anc' H IH Hk Hm]; intros m anc Hc; injection Hc as <- <-; [exists Main; reflexivity|].
  destruct (IH p anc' eq_refl) as (q & Hq). destruct q; injection Hq as -> ->; destruct c, g; cbn in Hk;
    repeat (destruct Hk as [<-|Hk]; [try (destruct Hm as (? & ? & ? & ? & ? & ? & ?); discriminate)|]); try contradiction.
  all: first [exists Sub; reflexivity|exists SubSub; reflexivity].
Qed.
Lemma door_in c g p w q : door p w q -> In w (names c g p) \/ w = lit "..".
Proof. intros []; destruct c, g; cbn; auto 20. Qed.
Lemma kid_name c g p m anc k : cctx c g p = m :: anc -> In k (cmd_kids m) -> cmd_en k = true -> In (cmd_name k) (names c g p) /\ (is_menu k <-> exists q, door p (cmd_name k) q).
Proof.
  intros Hc Hk. assert (Hno : forall (A : Prop) id nm en d ps a h, is_menu (CFn id nm en d ps a h) -> A) by (intros A id nm en d ps a h (? & ? & ? & ? & ? & ? & H); discriminate H).
  assert (Hno' : forall (A : Prop) id nm en d a h, is_menu (CFree id nm en d a h) -> A) by (intros A id nm en d a h (? & ? & ? & ? & ? & ? & H); discriminate H).
  destruct p, c, g; injection Hc as <- <-; cbn in Hk;
    repeat (destruct Hk as [<-|Hk]; [intros He; try discriminate He; (split; [vm_compute; auto 20|]);
      (split; [intros Hm; first [eapply Hno; exact Hm|eapply Hno'; exact Hm|eexists; constructor]|intros (q & Hq); first [solve [repeat eexists]|inversion Hq]])|]); try contradiction.
Qed.

Lemma menu_kid c g p m anc k : cctx c g p = m :: anc -> In k (cmd_kids m) -> is_menu k -> exists q, door p (cmd_name k) q /\ k :: m :: anc = cctx c g q.
Proof.
  intros Hc Hk Hm. assert (Hch : chain (root_of c g) (k :: m :: anc)).
  { constructor; [|exact Hk|exact Hm]. rewrite <- Hc. destruct p.
    - constructor. repeat eexists.
    - constructor; [constructor; repeat eexists|destruct c, g; cbn; auto 20|repeat eexists].
    - constructor; [constructor; [constructor; repeat eexists|destruct c, g; cbn; auto 20|repeat eexists]|cbn; auto|repeat eexists]. }
  destruct (root_chains _ _ _ _ Hch) as (q & Hq). rewrite Hq. exists q. split; [|reflexivity].
  destruct p, q; cbn [cctx] in Hc, Hq; injection Hc as <- <-; injection Hq; intros; subst; try discriminate; constructor.
Qed.
Lemma name_kid c g p m anc w : cctx c g p = m :: anc -> In w (names c g p) ->
  (exists k, In k (cmd_kids m) /\ cmd_en k = true /\ cmd_name k = w) \/
  (exists pa anc' q, anc = pa :: anc' /\ cmd_en pa = true /\ cmd_name pa = w /\ door p w q /\ forall line, is_prefix line w -> ~ is_prefix (lit "..") line).
Proof.
  intros Hc Hw.
  assert (Hpar : forall x line, is_prefix line x -> match x with "."%char :: _ => False | _ => True end -> ~ is_prefix (lit "..") line).
  { intros x line (r & ->) Hx (r' & ->). exact Hx. }
  assert (Hf : forall ks x k, find (fun k => cmd_en k && str_eqb (cmd_name k) x) ks = Some k -> exists k, In k ks /\ cmd_en k = true /\ cmd_name k = x).
  { intros ks x k Hk. apply find_some in Hk as (H1 & H2). apply andb_true_iff in H2 as (H2 & H3). apply str_eqb_eq in H3. eauto. }
  destruct p, c, g; injection Hc as <- <-; cbn [names map app In] in Hw;
    repeat (destruct Hw as [<-|Hw]; [first [left; eapply Hf; vm_compute; reflexivity|
      right; do 3 eexists; split; [reflexivity|]; split; [reflexivity|]; split; [reflexivity|]; split; [constructor|intros line Hl; apply (Hpar _ _ Hl); exact Logic.I]]|]); try contradiction.
Qed.

Lemma offers_suggests c g line s : forall p ctx, ctx = cctx c g p -> offers ctx line s -> suggests c g p line s.
Proof.
  intros p ctx Hc Ho. revert p Hc. induction Ho as [m anc k line Hk He Hp Hm|m anc k line rest s Hk Hm Hl Ho IH|m pa anc line He Hp Hne Hd|m pa anc line rest s Hl Ho IH|m pa anc line rest s Hn Hl Ho IH]; intros p Hc; symmetry in Hc.
  - destruct (kid_name _ _ _ _ _ _ Hc Hk He) as (Hin & Hiff). apply s_name; [exact Hin|exact Hp|]. intros -> q Hq. apply Hm. split; [apply Hiff; eauto|reflexivity].
  - destruct (menu_kid _ _ _ _ _ _ Hc Hk Hm) as (q & Hq & Hctx). subst line. apply (s_through _ _ p _ q); [exact Hq|]. apply IH, Hctx.
  - assert (Hq : exists q, door p (cmd_name pa) q /\ In (cmd_name pa) (names c g p)) by (destruct p; [discriminate|injection Hc as <- <- <-..]; eexists; (split; [constructor|cbn; auto])).
    destruct Hq as (q & Hq & Hin). apply s_name; [exact Hin|exact Hp|]. intros ->. contradiction.
  - assert (Hq : exists q, door p (cmd_name pa) q /\ pa :: anc = cctx c g q) by (destruct p; [discriminate|injection Hc as <- <- <-..]; eexists; (split; [constructor|reflexivity])).
    destruct Hq as (q & Hq & Hctx). subst line. apply (s_through _ _ p _ q); [exact Hq|]. apply IH, Hctx.
  - assert (Hq : exists q, door p (lit "..") q /\ pa :: anc = cctx c g q) by (destruct p; [discriminate|injection Hc as <- <- <-..]; eexists; (split; [constructor|reflexivity])).
    destruct Hq as (q & Hq & Hctx). subst line. apply (s_through _ _ p _ q); [exact Hq|]. apply IH, Hctx.
Qed.
Lemma suggests_offers c g p line s : suggests c g p line s -> offers (cctx c g p) line s.
Proof.
  induction 1 as [p line w Hw Hp Hd|p w q rest s Hd Hs IH].
  - destruct (cctx c g p) as [|m anc] eqn:Hc; [destruct p; discriminate|]. destruct (name_kid _ _ _ _ _ _ Hc Hw) as [(k & Hk & He & <-)|(pa & anc' & q & -> & He & <- & Hq & Hn)].
    + apply of_name; try assumption. intros (Hm & Hl). destruct (kid_name _ _ _ _ _ _ Hc Hk He) as (_ & Hiff). apply Hiff in Hm as (q & Hq). exact (Hd Hl q Hq).
    + apply of_parent_name; try assumption; [|apply Hn, Hp]. intros Hl. exact (Hd Hl q Hq).
  - destruct Hd.
    + apply (of_inside (root_of c g) [] cx_sub _ rest s); [destruct c, g; cbn; auto 20|repeat eexists|reflexivity|exact IH].
    + apply (of_inside cx_sub [root_of c g] cx_subsub _ rest s); [cbn; auto|repeat eexists|reflexivity|exact IH].
    + apply (of_parent cx_sub (root_of c g) [] _ rest s); [reflexivity|exact IH].
    + apply (of_dots cx_sub (root_of c g) [] _ rest s); [intros (r & Hr); discriminate Hr|reflexivity|exact IH].
    + apply (of_parent cx_subsub cx_sub [root_of c g] _ rest s); [reflexivity|exact IH].
    + apply (of_dots cx_subsub cx_sub [root_of c g] _ rest s); [intros (r & Hr); discriminate Hr|reflexivity|exact IH].
Qed.
Lemma global_offers line s : offers [global_menu] line s <-> In s (map lit ["help"; "exit"; "history"; "!"]%string) /\ is_prefix line s.
Proof.
  split.
  - intros H. inversion H as [m anc k l Hk He Hp Hm|m anc k l rest t Hk Hm Hl Ho| | |]; subst.
    + split; [|exact Hp]. cbn in Hk. repeat (destruct Hk as [<-|Hk]; [vm_compute; auto|]). contradiction.
    + cbn in Hk. repeat (destruct Hk as [<-|Hk]; [destruct Hm as (? & ? & ? & ? & ? & ? & Hm); discriminate Hm|]). contradiction.
  - intros (Hs & Hp). cbn in Hs.
    assert (Hk : exists k, In k (cmd_kids global_menu) /\ cmd_en k = true /\ cmd_name k = s /\ ~ is_menu k).
    { assert (Hf : forall k, find (fun k => str_eqb (cmd_name k) s) (cmd_kids global_menu) = Some k -> cmd_en k = true -> ~ is_menu k -> exists k, In k (cmd_kids global_menu) /\ cmd_en k = true /\ cmd_name k = s /\ ~ is_menu k).
      { intros k Hk He Hm. apply find_some in Hk as (H1 & H2). apply str_eqb_eq in H2. eauto. }
      repeat (destruct Hs as [<-|Hs]; [eapply Hf; [vm_compute; reflexivity|reflexivity|intros (? & ? & ? & ? & ? & ? & Hm); discriminate Hm]|]). contradiction. }
    destruct Hk as (k & Hk & He & <- & Hm). apply of_name; try assumption. intros (H & _). contradiction.
Qed.
Definition at_place (c g : bool) (u : user) (w : world) : Prop := w_root w = root_of c g /\ w_cur w = cid (u_place u).
Lemma tab_list P c g u w line n : at_place c g u w -> readable P line -> 2 * length line + 2 <= n ->
  exists l, get_completions P n line w = GOk l /\ suggestions c g (u_place u) line l.
Proof.
  intros (Hr & Hc) Hl Hn.
  assert (Hin : in_menu w (cctx c g (u_place u))) by (apply locate_in_menu; rewrite Hr, Hc; apply clocated).
  destruct (completions_total P line w) as (l & Hg).
  - exact (readable_safe P line Hl).
  - exists (cctx c g (u_place u)). exact Hin.
  - rewrite Hr. apply root_ids.
  - intros k pa anc Hch Hk _. rewrite Hr in Hch. apply root_chains in Hch as (q & Hq). destruct q; injection Hq; intros; subst; discriminate.
  - specialize (Hg n Hn). exists l. split; [exact Hg|]. split; [eapply completions_sorted, Hg|]. intros s. rewrite (completions_exact _ _ _ _ _ Hg) by (rewrite Hr; apply root_ids).
    unfold offered. rewrite global_offers. apply or_iff_compat_l. split.
    + intros (ctx & Hctx & Ho). rewrite (in_menu_unique w ctx (cctx c g (u_place u))) in Ho by (try assumption; rewrite Hr; apply root_ids). eapply offers_suggests; [reflexivity|exact Ho].
    + intros Hs. exists (cctx c g (u_place u)). split; [exact Hin|]. apply suggests_offers, Hs.
Qed.

(** ** Completions can be typed; there is only one answer *)
Definition ascii_char (c : ascii) : Prop := c <> "010"%char /\ (N_of_ascii c < 128)%N.
Definition ascii_charb (c : ascii) : bool := negb (Ascii.eqb c "010") && (N_of_ascii c <? 128)%N.
Lemma ascii_charb_ok s : forallb ascii_charb s = true -> Forall ascii_char s.
Proof.
  intros H. rewrite forallb_forall in H. apply Forall_forall. intros c Hc. apply H in Hc. apply andb_true_iff in Hc as (H1 & H2). apply negb_true_iff, Ascii.eqb_neq in H1. apply N.ltb_lt in H2. split; assumption.
Qed.
Lemma suggests_chars c g p line s : suggests c g p line s -> Forall ascii_char s.
Proof.
  induction 1 as [p line w Hw Hp Hd|p w q rest s Hd Hs IH].
  - assert (Ha : forallb (forallb ascii_charb) (names c g p) = true) by (destruct c, g, p; vm_compute; reflexivity). rewrite forallb_forall in Ha. apply ascii_charb_ok, Ha, Hw.
  - apply Forall_app. split; [destruct Hd; apply ascii_charb_ok; reflexivity|]. apply Forall_app. split; [apply ascii_charb_ok; reflexivity|exact IH].
Qed.
Lemma suggestions_chars c g p line l : suggestions c g p line l -> Forall (Forall ascii_char) l.
Proof.
  intros (_ & H). apply Forall_forall. intros s Hs. apply H in Hs as [(Hs & _)|Hs]; [|eapply suggests_chars, Hs].
  apply ascii_charb_ok. cbn [map In] in Hs. repeat (destruct Hs as [<-|Hs]; [reflexivity|]). contradiction.
Qed.
Lemma suggestions_unique c g p line l l' : suggestions c g p line l -> suggestions c g p line l' -> l = l'.
Proof. intros (H1 & H2) (H3 & H4). apply increasing_ext; [exact H1|exact H3|]. intros s. rewrite H2, H4. reflexivity. Qed.
Lemma lcp_unique l s s' : longest_common_prefix l s -> longest_common_prefix l s' -> s = s'.
Proof.
  intros (H1 & H2) (H3 & H4). destruct (H4 _ H1) as (r & Hr). destruct (H2 _ H3) as (r' & Hr'). assert (Hl := f_equal (@length _) Hr). rewrite Hr' in Hl. rewrite !app_length in Hl.
  destruct r as [|]; [rewrite app_nil_r in Hr; auto|cbn in Hl; lia].
Qed.
Lemma lcp_chars l s : l <> [] -> Forall (Forall ascii_char) l -> longest_common_prefix l s -> Forall ascii_char s.
Proof. destruct l as [|x l]; [congruence|]. intros _ H (Hp & _). destruct (Hp x (or_introl eq_refl)) as (r & ->). inversion H as [|? ? Hx _]; subst. apply Forall_app in Hx. apply Hx. Qed.
Lemma adjusts_unique c g size k u d s u' d' : adjusts c g size k u d s u' d' -> forall s2 u2 d2, adjusts c g size k u d s2 u2 d2 -> s = s2 /\ u' = u2 /\ d' = d2.
Proof.
  intros H s2 u2 d2 H'. inversion H; subst; inversion H'; subst; try discriminate; auto;
    repeat match goal with
    | H1 : suggestions _ _ _ _ ?l, H2 : suggestions _ _ _ _ ?m |- _ => assert_fails (constr_eq l m); let E := fresh in pose proof (suggestions_unique _ _ _ _ _ _ H1 H2) as E; first [discriminate E|injection E; intros; subst; clear H2|subst l; clear H1|subst m; clear H2]
    | H1 : longest_common_prefix _ ?l, H2 : longest_common_prefix _ ?m |- _ => assert_fails (constr_eq l m); let E := fresh in pose proof (lcp_unique _ _ _ H1 H2) as E; subst m; clear H2
    | H1 : turn_up _ _ _ _ = _, H2 : turn_up _ _ _ _ = _ |- _ => rewrite H1 in H2; injection H2; intros; subst; clear H2
    | H1 : turn_down _ _ = _, H2 : turn_down _ _ = _ |- _ => rewrite H1 in H2; injection H2; intros; subst; clear H2
    end; cbn [length] in *; try lia; auto.
Qed.
