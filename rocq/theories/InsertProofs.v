From Verif Require Import Base FromStringModel MenuModel SessionModel InsertModel InsertSpec.
Open Scope nat_scope.
Open Scope list_scope.

Lemma variadic_spec l ps : variadic l = Some ps <-> Forall2 of_type l ps.
Proof.
  revert ps. induction l as [|[q b] l IH]; intro ps; cbn [variadic].
  - split.
    + intro H. injection H as <-. constructor.
    + intro H. inversion H; subst. reflexivity.
  - split.
    + intro H. destruct (passable (q, b)) as [p|] eqn:Hp; [|discriminate].
      destruct (variadic l) as [ps'|] eqn:Hl; [|discriminate].
      injection H as <-. constructor.
      * destruct q, b; cbn in Hp; try discriminate; injection Hp as <-; [left|right]; reflexivity.
      * apply IH. reflexivity.
    + intro H. inversion H as [|x y l' ps' Hq Hl]; subst. apply IH in Hl. rewrite Hl.
      destruct Hq as [Hq|Hq]; injection Hq as -> ->; reflexivity.
Qed.

Lemma variadic_words l : one_words l = true -> variadic l = None.
Proof.
  destruct l as [|[[] []] [|]]; cbn; intro H; try discriminate; reflexivity.
Qed.

Lemma one_words_spec l : one_words l = true <-> exists q, l = [q] /\ all_words q.
Proof.
  split.
  - destruct l as [|[[] []] [|]]; cbn; intro H; try discriminate; eexists; (split; [reflexivity|]);
      [left|right]; reflexivity.
  - intros [q [-> [->| ->]]]; reflexivity.
Qed.

Lemma dispatch_fn k h d ps h' d' :
  dispatch k h d = Some (MFn ps h' d') <-> (object k /\ Forall2 of_type (c_pars k) ps) /\ h' = h /\ d' = d.
Proof.
  unfold dispatch, object. split.
  - destruct (c_shape k) as [|[]|]; try discriminate. destruct (c_stream k); [|discriminate].
    destruct (one_words (c_pars k)); [discriminate|].
    destruct (variadic (c_pars k)) eqn:Hv; [|discriminate].
    intro H. injection H as <- <- <-. apply variadic_spec in Hv.
    split; [|split; reflexivity]. split; [split; reflexivity|exact Hv].
  - intros [[[-> ->] Hv] [-> ->]]. apply variadic_spec in Hv.
    destruct (one_words (c_pars k)) eqn:Ho.
    + rewrite (variadic_words _ Ho) in Hv. discriminate.
    + rewrite Hv. reflexivity.
Qed.

Lemma dispatch_free k h d h' d' :
  dispatch k h d = Some (MFree h' d') <-> untyped k /\ h' = h /\ d' = d.
Proof.
  unfold dispatch, untyped, object. rewrite <- one_words_spec. split.
  - destruct (c_shape k) as [|[]|]; try discriminate. destruct (c_stream k); [|discriminate].
    destruct (one_words (c_pars k)).
    + intro H. injection H as <- <-. split; [|split; reflexivity].
      split; [split; reflexivity|reflexivity].
    + destruct (variadic (c_pars k)); discriminate.
  - intros [[[-> ->] ->] [-> ->]]. reflexivity.
Qed.

Lemma dispatch_ub k h d : dispatch k h d <> Some MUB.
Proof.
  unfold dispatch. destruct (c_shape k) as [|[]|]; try discriminate. destruct (c_stream k); [|discriminate].
  destruct (one_words (c_pars k)); [discriminate|]. destruct (variadic (c_pars k)); discriminate.
Qed.

Lemma dispatch_any k h d h' d' : dispatch k h d = None <-> dispatch k h' d' = None.
Proof.
  unfold dispatch. destruct (c_shape k) as [|[]|]; try (split; reflexivity). destruct (c_stream k); [|split; reflexivity].
  destruct (one_words (c_pars k)); [split; discriminate|]. destruct (variadic (c_pars k)); split; try discriminate; reflexivity.
Qed.

(** The outcome for one of the five forms. *)
Definition outcome (first : bool) (k : callable) (t : option str) (d : list str) : option made :=
  match c_shape k, first with
  | Pointer, true =>
      if c_stream k then
        match variadic (c_pars k) with
        | Some ps => Some (match t with Some h => MFn ps h d | None => MUB end)
        | None => None
        end
      else None
  | _, _ =>
      match dispatch k [] d with
      | Some _ => match t with Some h => dispatch k h d | None => Some MUB end
      | None => None
      end
  end.

Definition lone_text (a : arg) : option (option str) :=
  match a with
  | AText _ s => Some (Some s)
  | AList [] => Some (Some [])
  | AList [s] => Some (Some s)
  | AList [_; _] => Some None
  | _ => None
  end.
Definition lone_words (a : arg) : option (list str) :=
  match a with AVec l | AList l => Some l | _ => None end.

(** All calls, form by form. *)
Definition table (args : list arg) : option made :=
  match args with
  | [ACall k] => outcome false k (Some []) []
  | [ACall k; t] => match lone_text t with Some x => outcome true k x [] | None => None end
  | [ACall k; t; d] =>
      match lone_text t, lone_words d with Some x, Some l => outcome true k x l | _, _ => None end
  | [d; ACall k] => match lone_words d with Some l => outcome false k (Some []) l | None => None end
  | [d; ACall k; t] =>
      match lone_words d, lone_text t with Some l, Some x => outcome false k x l | _, _ => None end
  | _ => None
  end.

Ltac settle :=
  cbv -[variadic one_words];
  repeat match goal with
  | |- context [variadic ?l] => destruct (variadic l)
  | |- context [one_words ?l] => destruct (one_words l)
  end; reflexivity.
Ltac cases a := destruct a as [[[|[]|] [] ?]|[] ?|?|[|? [|? [|? ?]]]].

Lemma insert_table args : insert_call args = table args.
Proof.
  destruct args as [|a1 [|a2 [|a3 [|a4 rest]]]].
  - reflexivity.
  - cases a1; settle.
  - cases a1; cases a2; settle.
  - cases a1; cases a2; cases a3; settle.
  - assert (N : forall o, viable (a1 :: a2 :: a3 :: a4 :: rest) o = false).
    { intros []; unfold viable, params; cbn [ranks];
        repeat match goal with |- context [rank ?p ?a] => destruct (rank p a) end; reflexivity. }
    unfold insert_call, resolve. rewrite !N. cbn [andb]. unfold table.
    destruct a1; destruct a2; reflexivity.
Qed.

Lemma lone_text_some a h : lone_text a = Some (Some h) <-> text_of a h.
Proof.
  split.
  - destruct a as [k|b s|v|[|x [|y [|z v]]]]; cbn; intro H; try discriminate; injection H as <-; constructor.
  - intro H; inversion H; reflexivity.
Qed.
Lemma lone_text_none a : lone_text a = Some None <-> exists x y, a = AList [x; y].
Proof.
  split.
  - destruct a as [k|b s|v|[|x [|y [|z v]]]]; cbn; intro H; try discriminate. exists x, y. reflexivity.
  - intros [x [y ->]]. reflexivity.
Qed.
Lemma lone_words_spec a l : lone_words a = Some l <-> words_of a l.
Proof.
  split.
  - destruct a; cbn; intro H; try discriminate; injection H as <-; constructor.
  - intro H; inversion H; reflexivity.
Qed.

Lemma outcome_fn first k t d ps h l :
  outcome first k t d = Some (MFn ps h l) <->
  Forall2 of_type (c_pars k) ps /\ (object k \/ (function k /\ first = true)) /\ t = Some h /\ l = d.
Proof.
  unfold outcome, object, function. split.
  - destruct (c_shape k) as [|[]|] eqn:Hs, first; try (unfold dispatch; rewrite Hs; discriminate).
    + destruct (c_stream k); [|discriminate]. destruct (variadic (c_pars k)) eqn:Hv; [|discriminate].
      destruct t; [|discriminate]. intro H. injection H as <- <- <-. apply variadic_spec in Hv.
      split; [exact Hv|]. split; [right; split; [split; reflexivity|reflexivity]|split; reflexivity].
    + destruct (dispatch k [] d); [|discriminate]. destruct t as [h'|]; [|discriminate].
      intro H. apply dispatch_fn in H. destruct H as [[[_ Ho] Hv] [<- <-]].
      split; [exact Hv|]. split; [left; split; [reflexivity|exact Ho]|split; reflexivity].
    + destruct (dispatch k [] d); [|discriminate]. destruct t as [h'|]; [|discriminate].
      intro H. apply dispatch_fn in H. destruct H as [[[_ Ho] Hv] [<- <-]].
      split; [exact Hv|]. split; [left; split; [reflexivity|exact Ho]|split; reflexivity].
  - intros [Hv [[[Hs Ho]|[[Hs Ho] ->]] [-> ->]]]; rewrite Hs.
    + assert (Hd : forall x, dispatch k x d = Some (MFn ps x d)).
      { intro x. apply dispatch_fn. split; [|split; reflexivity]. split; [split; assumption|exact Hv]. }
      rewrite (Hd []). destruct first; apply Hd.
    + rewrite Ho. apply variadic_spec in Hv. rewrite Hv. reflexivity.
Qed.

Lemma outcome_free first k t d h l :
  outcome first k t d = Some (MFree h l) <-> untyped k /\ t = Some h /\ l = d.
Proof.
  unfold outcome. split.
  - destruct (c_shape k) as [|[]|] eqn:Hs, first; try (unfold dispatch; rewrite Hs; discriminate).
    + destruct (c_stream k); [|discriminate]. destruct (variadic (c_pars k)) eqn:Hv; [|discriminate].
      destruct t; discriminate.
    + destruct (dispatch k [] d); [|discriminate]. destruct t as [h'|]; [|discriminate].
      intro H. apply dispatch_free in H. destruct H as [Hu [<- <-]]. split; [exact Hu|split; reflexivity].
    + destruct (dispatch k [] d); [|discriminate]. destruct t as [h'|]; [|discriminate].
      intro H. apply dispatch_free in H. destruct H as [Hu [<- <-]]. split; [exact Hu|split; reflexivity].
  - intros [Hu [-> ->]]. assert (Hd : forall x, dispatch k x d = Some (MFree x d)).
    { intro x. apply dispatch_free. split; [exact Hu|split; reflexivity]. }
    destruct Hu as [[Hs _] _]. rewrite Hs, (Hd []). destruct first; apply Hd.
Qed.

Lemma outcome_defined first k h d : outcome first k (Some h) d <> Some MUB.
Proof.
  unfold outcome.
  destruct (c_shape k) as [|b|], first;
    try (destruct (dispatch k [] d); [apply dispatch_ub|discriminate]).
  destruct (c_stream k); [|discriminate]. destruct (variadic (c_pars k)); discriminate.
Qed.

Lemma outcome_undefined first k h d :
  outcome first k None d = Some MUB <-> outcome first k (Some h) d <> None.
Proof.
  assert (D : (match dispatch k [] d with Some _ => Some MUB | None => None end) = Some MUB <->
              (match dispatch k [] d with Some _ => dispatch k h d | None => None end) <> None).
  { destruct (dispatch k [] d) as [m|] eqn:E.
    - split; [|reflexivity]. intros _ X. apply (dispatch_any k h d [] d) in X. rewrite X in E. discriminate.
    - split; [discriminate|]. intro X. destruct (X eq_refl). }
  unfold outcome.
  destruct (c_shape k) as [|b|], first; try exact D.
  destruct (c_stream k).
  - destruct (variadic (c_pars k)); split; try discriminate; try reflexivity. intro X. destruct (X eq_refl).
  - split; [discriminate|]. intro X. destruct (X eq_refl).
Qed.

Lemma outcome_ub first k t d :
  outcome first k t d = Some MUB <->
  t = None /\ (untyped k \/ exists ps, Forall2 of_type (c_pars k) ps /\ (object k \/ (function k /\ first = true))).
Proof.
  split.
  - intro H. destruct t as [x|]; [destruct (outcome_defined _ _ _ _ H)|]. split; [reflexivity|].
    apply (outcome_undefined first k []) in H.
    destruct (outcome first k (Some []) d) as [[ps h l|h l|]|] eqn:Ho.
    + apply outcome_fn in Ho. destruct Ho as [Hv [Hk _]]. right. exists ps. split; assumption.
    + apply outcome_free in Ho. left. apply Ho.
    + destruct (outcome_defined _ _ _ _ Ho).
    + destruct (H eq_refl).
  - intros [-> H]. apply (outcome_undefined first k []). intro X.
    destruct H as [Hu|[ps [Hv Hk]]].
    + assert (Hf : outcome first k (Some []) d = Some (MFree [] d)) by (apply outcome_free; split; [exact Hu|split; reflexivity]).
      rewrite X in Hf. discriminate.
    + assert (Hf : outcome first k (Some []) d = Some (MFn ps [] d)).
      { apply outcome_fn. split; [exact Hv|]. split; [exact Hk|split; reflexivity]. }
      rewrite X in Hf. discriminate.
Qed.

(** The forms, read off the table. *)
Definition form (args : list arg) (first : bool) (k : callable) (t : option str) (d : list str) : Prop :=
  (first = false /\ ((args = [ACall k] /\ t = Some [] /\ d = []) \/
     (exists a, args = [a; ACall k] /\ words_of a d /\ t = Some []) \/
     (exists a b, args = [a; ACall k; b] /\ words_of a d /\ lone_text b = Some t))) \/
  (first = true /\ ((exists b, args = [ACall k; b] /\ lone_text b = Some t /\ d = []) \/
     (exists b a, args = [ACall k; b; a] /\ lone_text b = Some t /\ words_of a d))).

Lemma table_form args m :
  table args = Some m <-> exists first k t d, form args first k t d /\ outcome first k t d = Some m.
Proof.
  split.
  - destruct args as [|a1 [|a2 [|a3 [|a4 rest]]]].
    + discriminate.
    + destruct a1 as [k| | |]; try discriminate. intro H. exists false, k, (Some []), [].
      split; [|exact H]. left. split; [reflexivity|]. left. split; [reflexivity|split; reflexivity].
    + destruct a1 as [k|b s|v|v].
      * intro H.
        assert (X : table [ACall k; a2] = match lone_text a2 with Some x => outcome true k x [] | None => None end) by (destruct a2; reflexivity).
        rewrite X in H; clear X. destruct (lone_text a2) as [x|] eqn:Ht; [|discriminate].
        exists true, k, x, []. split; [|exact H]. right. split; [reflexivity|]. left.
        exists a2. split; [reflexivity|split; [exact Ht|reflexivity]].
      * destruct a2; discriminate.
      * destruct a2 as [k| | |]; try discriminate. intro H. exists false, k, (Some []), v. split; [|exact H].
        left. split; [reflexivity|]. right. left. exists (AVec v). split; [reflexivity|]. split; [constructor|reflexivity].
      * destruct a2 as [k| | |]; try discriminate. intro H. exists false, k, (Some []), v. split; [|exact H].
        left. split; [reflexivity|]. right. left. exists (AList v). split; [reflexivity|]. split; [constructor|reflexivity].
    + destruct a1 as [k|b s|v|v].
      * intro H.
        assert (X : table [ACall k; a2; a3] = match lone_text a2, lone_words a3 with Some x, Some l => outcome true k x l | _, _ => None end) by (destruct a2; reflexivity).
        rewrite X in H; clear X. destruct (lone_text a2) as [x|] eqn:Ht; [|discriminate].
        destruct (lone_words a3) as [l|] eqn:Hw; [|discriminate]. apply lone_words_spec in Hw.
        exists true, k, x, l. split; [|exact H]. right. split; [reflexivity|]. right.
        exists a2, a3. split; [reflexivity|split; [exact Ht|exact Hw]].
      * destruct a2; discriminate.
      * destruct a2 as [k| | |]; try discriminate. intro H.
        assert (X : table [AVec v; ACall k; a3] = match lone_text a3 with Some x => outcome false k x v | None => None end) by reflexivity.
        rewrite X in H; clear X. destruct (lone_text a3) as [x|] eqn:Ht; [|discriminate].
        exists false, k, x, v. split; [|exact H]. left. split; [reflexivity|]. right. right.
        exists (AVec v), a3. split; [reflexivity|]. split; [constructor|exact Ht].
      * destruct a2 as [k| | |]; try discriminate. intro H.
        assert (X : table [AList v; ACall k; a3] = match lone_text a3 with Some x => outcome false k x v | None => None end) by reflexivity.
        rewrite X in H; clear X. destruct (lone_text a3) as [x|] eqn:Ht; [|discriminate].
        exists false, k, x, v. split; [|exact H]. left. split; [reflexivity|]. right. right.
        exists (AList v), a3. split; [reflexivity|]. split; [constructor|exact Ht].
    + destruct a1; destruct a2; discriminate.
  - intros [first [k [t [d [F H]]]]]. rewrite <- H.
    destruct F as [[-> [[-> [-> ->]]|[[a [-> [Hw ->]]]|[a [b [-> [Hw Ht]]]]]]]|[-> [[b [-> [Ht ->]]]|[b [a [-> [Ht Hw]]]]]]].
    + reflexivity.
    + inversion Hw; subst; reflexivity.
    + inversion Hw; subst; cbn [table lone_words]; rewrite Ht; reflexivity.
    + cbn [table]. rewrite Ht. destruct b; reflexivity.
    + apply lone_words_spec in Hw. cbn [table]. rewrite Ht, Hw. destruct b; reflexivity.
Qed.

Lemma form_asked args k h d : asked args k h d <-> exists first, form args first k (Some h) d.
Proof.
  split.
  - intro H. inversion H; subst.
    + exists false. left. split; [reflexivity|]. left. split; [reflexivity|split; reflexivity].
    + exists true. right. split; [reflexivity|]. left. exists t. split; [reflexivity|].
      split; [apply lone_text_some; assumption|reflexivity].
    + exists true. right. split; [reflexivity|]. right. exists t, d0. split; [reflexivity|].
      split; [apply lone_text_some; assumption|assumption].
    + exists false. left. split; [reflexivity|]. right. left. exists d0. split; [reflexivity|]. split; [assumption|reflexivity].
    + exists false. left. split; [reflexivity|]. right. right. exists d0, t. split; [reflexivity|].
      split; [assumption|apply lone_text_some; assumption].
  - intros [first F].
    destruct F as [[-> [[-> [X ->]]|[[a [-> [Hw X]]]|[a [b [-> [Hw Ht]]]]]]]|[-> [[b [-> [Ht ->]]]|[b [a [-> [Ht Hw]]]]]]].
    + injection X as ->. constructor.
    + injection X as ->. constructor. exact Hw.
    + apply lone_text_some in Ht. constructor; assumption.
    + apply lone_text_some in Ht. constructor; assumption.
    + apply lone_text_some in Ht. constructor; assumption.
Qed.

Lemma form_trap args k : trap args k <-> exists first d, form args first k None d.
Proof.
  split.
  - intro H. inversion H; subst.
    + exists true, []. right. split; [reflexivity|]. left. exists (AList [a; b]). split; [reflexivity|split; reflexivity].
    + exists true, l. right. split; [reflexivity|]. right. exists (AList [a; b]), d. split; [reflexivity|]. split; [reflexivity|assumption].
    + exists false, l. left. split; [reflexivity|]. right. right. exists d, (AList [a; b]). split; [reflexivity|]. split; [assumption|reflexivity].
  - intros [first [d F]].
    destruct F as [[-> [[-> [X ->]]|[[a [-> [Hw X]]]|[a [b [-> [Hw Ht]]]]]]]|[-> [[b [-> [Ht ->]]]|[b [a [-> [Ht Hw]]]]]]].
    + discriminate.
    + discriminate.
    + apply lone_text_none in Ht. destruct Ht as [x [y ->]]. econstructor. exact Hw.
    + apply lone_text_none in Ht. destruct Ht as [x [y ->]]. constructor.
    + apply lone_text_none in Ht. destruct Ht as [x [y ->]]. econstructor. exact Hw.
Qed.

(** A function in the first place with a help text: exactly the forms marked so. *)
Lemma form_helped args first k t d : form args first k t d -> (helped args <-> first = true).
Proof.
  intro F. split.
  - intros [k' [u [rest ->]]].
    destruct F as [[-> [[X _]|[[a [X [Hw _]]]|[a [b [X [Hw _]]]]]]]|[-> _]]; try discriminate; [| |reflexivity];
      injection X as <- _; inversion Hw.
  - intros ->. destruct F as [[X _]|[_ [[b [-> _]]|[b [a [-> _]]]]]]; [discriminate| |].
    + exists k, b, []. reflexivity.
    + exists k, b, [a]. reflexivity.
Qed.

Theorem insert_fn args ps h d :
  insert_call args = Some (MFn ps h d) <-> exists k, asked args k h d /\ typed args k ps.
Proof.
  rewrite insert_table, table_form. split.
  - intros [first [k [t [d' [F H]]]]]. apply outcome_fn in H. destruct H as [Hv [Hk [-> ->]]].
    exists k. split; [apply form_asked; exists first; exact F|]. split; [exact Hv|].
    destruct Hk as [Hk|[Hk ->]]; [left; exact Hk|right]. split; [exact Hk|]. apply (form_helped _ _ _ _ _ F). reflexivity.
  - intros [k [Ha [Hv Hk]]]. apply form_asked in Ha. destruct Ha as [first F].
    exists first, k, (Some h), d. split; [exact F|]. apply outcome_fn. split; [exact Hv|].
    split; [|split; reflexivity]. destruct Hk as [Hk|[Hk Hh]]; [left; exact Hk|right].
    split; [exact Hk|]. apply (form_helped _ _ _ _ _ F). exact Hh.
Qed.

Theorem insert_free args h d :
  insert_call args = Some (MFree h d) <-> exists k, asked args k h d /\ untyped k.
Proof.
  rewrite insert_table, table_form. split.
  - intros [first [k [t [d' [F H]]]]]. apply outcome_free in H. destruct H as [Hu [-> ->]].
    exists k. split; [apply form_asked; exists first; exact F|exact Hu].
  - intros [k [Ha Hu]]. apply form_asked in Ha. destruct Ha as [first F].
    exists first, k, (Some h), d. split; [exact F|]. apply outcome_free. split; [exact Hu|split; reflexivity].
Qed.

Theorem insert_ub args :
  insert_call args = Some MUB <-> exists k, trap args k /\ (untyped k \/ exists ps, typed args k ps).
Proof.
  rewrite insert_table, table_form. split.
  - intros [first [k [t [d [F H]]]]]. apply outcome_ub in H. destruct H as [-> H].
    exists k. split; [apply form_trap; exists first, d; exact F|].
    destruct H as [Hu|[ps [Hv Hk]]]; [left; exact Hu|right]. exists ps. split; [exact Hv|].
    destruct Hk as [Hk|[Hk ->]]; [left; exact Hk|right]. split; [exact Hk|]. apply (form_helped _ _ _ _ _ F). reflexivity.
  - intros [k [Ht H]]. apply form_trap in Ht. destruct Ht as [first [d F]].
    exists first, k, None, d. split; [exact F|]. apply outcome_ub. split; [reflexivity|].
    destruct H as [Hu|[ps [Hv Hk]]]; [left; exact Hu|right]. exists ps. split; [exact Hv|].
    destruct Hk as [Hk|[Hk Hh]]; [left; exact Hk|right]. split; [exact Hk|]. apply (form_helped _ _ _ _ _ F). exact Hh.
Qed.

Lemma asked_has args k h d : asked args k h d -> In (ACall k) args.
Proof. intro H; inversion H; subst; cbn; tauto. Qed.
Lemma trap_has args k : trap args k -> In (ACall k) args.
Proof. intro H; inversion H; subst; cbn; tauto. Qed.

Lemma convert_words E : forall ps ws vs, words_as E ps ws vs -> convert_all E ps ws = COk vs.
Proof.
  induction ps as [|p ps IH]; intros [|x ws] vs [H L]; try discriminate.
  - inversion H; subst. reflexivity.
  - cbn [combine] in H. inversion H as [|a v l vs' H1 H2]; subst. cbn [fst snd] in H1.
    cbn [convert_all]. rewrite H1. cbn [cbind]. rewrite (IH ws vs'); [reflexivity|].
    split; [exact H2|]. injection L as L. exact L.
Qed.
Lemma same_length l ps : Forall2 of_type l ps -> length l = length ps.
Proof. induction 1; cbn [length]; congruence. Qed.

Lemma listed m id name n c h d what : made_cmd id name n m = Some c ->
  (exists ps, m = MFn ps h d /\ what = map type_desc ps) \/ (m = MFree h d /\ what = [lit "<list of strings>"]) ->
  help_line c = lit " - " ++ name ++
    flat_map (fun x => lit " " ++ x) (match d with [] => what | _ => map (fun x => lit "<" ++ x ++ lit ">") d end) ++
    nl ++ tab ++ h ++ nl.
Proof.
  assert (P : forall l : list str, print_pdesc l = flat_map (fun x => lit " " ++ x) (map (fun x => lit "<" ++ x ++ lit ">") l)).
  { induction l as [|x l IH]; [reflexivity|]. cbn [map flat_map]. unfold print_pdesc in *. cbn [flat_map]. rewrite IH. reflexivity. }
  assert (Q : forall ps, print_desc ps = flat_map (fun x => lit " " ++ x) (map type_desc ps)).
  { induction ps as [|x l IH]; [reflexivity|]. cbn [map flat_map]. unfold print_desc in *. cbn [flat_map]. rewrite IH. reflexivity. }
  intros Hm [[ps [-> ->]]|[-> ->]]; injection Hm as <-; unfold help_line; cbn [cmd_en negb].
  - destruct d as [|x d]; [rewrite Q|rewrite <- P]; reflexivity.
  - destruct d as [|x d]; [|rewrite <- P]; reflexivity.
Qed.
