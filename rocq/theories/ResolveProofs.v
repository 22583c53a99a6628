(** * Proofs about command resolution *)

From Verif Require Import Base FromStringModel MenuModel SessionModel ResolveSpec.
From Coq Require Import Sorted.
Open Scope nat_scope.
Open Scope list_scope.

(** ** All readings of a line, in order *)
Notation choice := (list nat * target)%type.
Definition under (i : nat) (l : list choice) : list choice := map (fun x => (i :: fst x, snd x)) l.

Definition leaf_choices (k : cmd) (toks : list str) : list choice :=
  match k, toks with
  | CFn _ name true _ pars _ h, t :: args =>
      if Nat.eqb (length toks) (length pars + 1) && str_eqb name t then [([], TRun h pars args)] else []
  | CFree _ name true _ _ h, t :: args => if str_eqb name t then [([], TFree h args)] else []
  | _, _ => []
  end.

Definition cmd_choices (hc : bool -> list cmd -> list choice) (toks : list str) (ctx : list cmd) (k : cmd) : list choice :=
  match k with
  | CMenu _ _ _ _ _ _ => hc false (k :: ctx)
  | _ => leaf_choices k toks
  end.

Fixpoint kids_choices (f : cmd -> list choice) (i : nat) (l : list cmd) : list choice :=
  match l with [] => [] | k :: l' => under i (f k) ++ kids_choices f (S i) l' end.

Definition menu_choices (hc : bool -> list cmd -> list choice) (toks : list str) (ctx : list cmd) : list choice :=
  match ctx with
  | [] => []
  | m :: anc =>
      if cmd_en m then
        kids_choices (cmd_choices hc toks ctx) 0 (cmd_kids m) ++
        match anc with [] => [] | _ => under (length (cmd_kids m)) (hc true anc) end
      else []
  end.

Fixpoint h_choices (toks : list str) (up : bool) (ctx : list cmd) {struct toks} : list choice :=
  match toks with
  | [] => []
  | t :: rest =>
      match ctx with
      | CMenu id name true _ _ kids :: anc =>
          if str_eqb name t || (up && str_eqb (lit "..") t) then
            match rest with
            | [] => [([], TGoto id)]
            | _ => menu_choices (h_choices rest) rest ctx
            end
          else []
      | _ => []
      end
  end.
Definition choices (toks : list str) (ctx : list cmd) : list choice :=
  menu_choices (h_choices toks) toks ctx.

(** ** The choices are the readings *)
Lemma in_under i l p t : In (p, t) (under i l) <-> exists p', p = i :: p' /\ In (p', t) l.
Proof.
  unfold under. rewrite in_map_iff. split.
  - intros ((p', t') & H & Hin). injection H as <- <-. eauto.
  - intros (p' & -> & Hin). exists (p', t). auto.
Qed.

Lemma in_kids f l : forall i p t, In (p, t) (kids_choices f i l) <->
  exists j k p', nth_error l j = Some k /\ p = (i + j) :: p' /\ In (p', t) (f k).
Proof.
  induction l as [|k l IH]; intros i p t; cbn [kids_choices].
  - split; [intros []|]. intros (j & k & p' & H & _). destruct j; discriminate.
  - rewrite in_app_iff, in_under, IH. split.
    + intros [(p' & -> & H)|(j & k' & p' & H & -> & H2)].
      * exists 0, k, p'. rewrite Nat.add_0_r. auto.
      * exists (S j), k', p'. rewrite <- Nat.add_succ_comm. auto.
    + intros (j & k' & p' & H & -> & H2). destruct j as [|j]; cbn in H.
      * injection H as <-. left. exists p'. rewrite Nat.add_0_r. auto.
      * right. exists j, k', p'. rewrite <- Nat.add_succ_comm. auto.
Qed.

Lemma in_leaf k toks p t : In (p, t) (leaf_choices k toks) <->
  p = [] /\
  ((exists id name desc pars pdesc h args, k = CFn id name true desc pars pdesc h /\
      toks = name :: args /\ length args = length pars /\ t = TRun h pars args) \/
   (exists id name desc pdesc h args, k = CFree id name true desc pdesc h /\
      toks = name :: args /\ t = TFree h args)).
Proof.
  split.
  - destruct k as [id name en desc pars pdesc h|id name en desc pdesc h|]; cbn; [| |intros []].
    + destruct en; [|intros []]. destruct toks as [|w args]; [intros []|].
      destruct (Nat.eqb_spec (length (w :: args)) (length pars + 1)) as [Hl|]; [|intros []].
      destruct (str_eqb_spec name w) as [->|]; [|intros []].
      cbn. intros [H|[]]. injection H as <- <-. split; [reflexivity|]. left.
      do 7 eexists. split; [reflexivity|]. split; [reflexivity|]. split; [cbn in Hl; lia|reflexivity].
    + destruct en; [|intros []]. destruct toks as [|w args]; [intros []|].
      destruct (str_eqb_spec name w) as [->|]; [|intros []].
      cbn. intros [H|[]]. injection H as <- <-. split; [reflexivity|]. right.
      do 6 eexists. repeat split.
  - intros (-> & [(id & name & desc & pars & pdesc & h & args & -> & -> & Hl & ->)|
                  (id & name & desc & pdesc & h & args & -> & -> & ->)]).
    + cbn [leaf_choices]. replace (length (name :: args)) with (length pars + 1) by (cbn; lia).
      rewrite Nat.eqb_refl, str_eqb_refl. left. reflexivity.
    + cbn [leaf_choices]. rewrite str_eqb_refl. left. reflexivity.
Qed.

Lemma match_cons {A B} (l : list A) (a : B) (b : B) : l <> [] ->
  match l with [] => a | _ => b end = b.
Proof. destruct l; congruence. Qed.

(** The readings through one choice [ctx] of a menu. *)
Definition through (up : bool) (ctx : list cmd) (toks : list str) (p : list nat) (t : target) : Prop :=
  exists id name en desc pr kids anc w rest,
    ctx = CMenu id name en desc pr kids :: anc /\ toks = w :: rest /\
    (w = name \/ (up = true /\ w = lit "..")) /\ en = true /\
    ((rest = [] /\ p = [] /\ t = TGoto id) \/ reading ctx rest p t).

Lemma reading_nil_inv ctx p t : ~ reading ctx [] p t.
Proof. intros H. inversion H. Qed.

Lemma reading_cases ctx toks p t : toks <> [] ->
  reading ctx toks p t <->
  exists m anc i p', ctx = m :: anc /\ cmd_en m = true /\ p = i :: p' /\
    ((exists k, nth_error (cmd_kids m) i = Some k /\
        (In (p', t) (leaf_choices k toks) \/ through false (k :: ctx) toks p' t)) \/
     (i = length (cmd_kids m) /\ through true anc toks p' t)).
Proof.
  intros Hne. split.
  - intros H. inversion H as
      [m anc i id name desc pars pdesc h args He Hn Hl|m anc i id name desc pdesc h args He Hn|
       m anc i id name desc pr kids He Hn|m anc i sub id name en desc pr kids rest path t0 He Hn Hs Hr|
       m q anc id name desc pr kids word He Hp Hw|
       m q anc id name en desc pr kids word rest path t0 He Hp Hw Hr]; subst.
    + exists m, anc, i, []. do 3 (split; [auto|]). left. eexists. split; [eassumption|]. left.
      apply in_leaf. split; [reflexivity|]. left. do 7 eexists. repeat split; auto.
    + exists m, anc, i, []. do 3 (split; [auto|]). left. eexists. split; [eassumption|]. left.
      apply in_leaf. split; [reflexivity|]. right. do 6 eexists. repeat split; auto.
    + exists m, anc, i, []. do 3 (split; [auto|]). left. eexists. split; [eassumption|]. right.
      do 9 eexists. repeat split; auto.
    + exists m, anc, i, path. do 3 (split; [auto|]). left. eexists. split; [eassumption|]. right.
      assert (en = true) as -> by (inversion Hr; cbn in *; auto).
      do 9 eexists. repeat split; auto.
    + exists m, (CMenu id name true desc pr kids :: anc), (length (cmd_kids m)), []. do 3 (split; [auto|]). right.
      split; [reflexivity|]. do 9 eexists. split; [reflexivity|]. split; [reflexivity|].
      split; [destruct Hw; auto|]. auto.
    + exists m, (CMenu id name en desc pr kids :: anc), (length (cmd_kids m)), path. do 3 (split; [auto|]). right.
      split; [reflexivity|]. assert (en = true) as -> by (inversion Hr; cbn in *; auto).
      do 9 eexists. split; [reflexivity|]. split; [reflexivity|].
      split; [destruct Hw; auto|]. auto.
  - intros (m & anc & i & p' & -> & He & -> & [(k & Hn & [H|H])|(-> & H)]).
    + apply in_leaf in H as (-> & [(id & name & desc & pars & pdesc & h & args & -> & -> & Hl & ->)|
                                   (id & name & desc & pdesc & h & args & -> & -> & ->)]).
      * eapply rd_fn; eauto.
      * eapply rd_free; eauto.
    + destruct H as (id & name & en & desc & pr & kids & anc0 & w & rest & Hc & -> & Hw & -> & Hr).
      injection Hc as -> <-. destruct Hw as [->|[? _]]; [|discriminate].
      destruct Hr as [(-> & -> & ->)|Hr]; [eapply rd_menu|eapply rd_in_menu]; eauto.
    + destruct H as (id & name & en & desc & pr & kids & anc0 & w & rest & -> & -> & Hw & -> & Hr).
      assert (w = name \/ w = lit "..") by tauto.
      destruct Hr as [(-> & -> & ->)|Hr]; [eapply rd_parent|eapply rd_in_parent]; eauto.
Qed.

(** Choices through a menu, given the choices for shorter lines. *)
Lemma in_menu_choices toks ctx p t : toks <> [] ->
  (forall up c p t, In (p, t) (h_choices toks up c) <-> through up c toks p t) ->
  (In (p, t) (menu_choices (h_choices toks) toks ctx) <-> reading ctx toks p t).
Proof.
  intros Hne IH. rewrite reading_cases by assumption.
  destruct ctx as [|m anc]; cbn [menu_choices].
  { split; [intros []|]. intros (m & anc & i & p' & H & _). discriminate. }
  destruct (cmd_en m) eqn:He.
  2:{ split; [intros []|]. intros (m' & anc' & i & p' & H & He' & _). injection H as <- <-. congruence. }
  rewrite in_app_iff, in_kids.
  assert (Hk : forall k p', In (p', t) (cmd_choices (h_choices toks) toks (m :: anc) k) <->
     In (p', t) (leaf_choices k toks) \/ through false (k :: m :: anc) toks p' t).
  { intros k p'. destruct k as [id name en desc pars pdesc h|id name en desc pdesc h|id name en desc pr kids].
    1,2: cbn [cmd_choices]; split; [auto|]; intros [H|H]; [exact H|];
         destruct H as (? & ? & ? & ? & ? & ? & ? & ? & ? & H & _); discriminate.
    cbn [cmd_choices]. rewrite IH. cbn [leaf_choices]. split; [auto|intros [[]|H]; exact H]. }
  split.
  - intros [(j & k & p' & Hn & -> & H)|H].
    + apply Hk in H. exists m, anc, j, p'. repeat split; auto. left. eauto.
    + destruct anc as [|a anc]; [destruct H|].
      apply in_under in H as (p' & -> & H). apply IH in H.
      exists m, (a :: anc), (length (cmd_kids m)), p'. repeat split; auto.
  - intros (m' & anc' & i & p' & Hc & _ & -> & H). injection Hc as <- <-.
    destruct H as [(k & Hn & H)|(-> & H)].
    + left. exists i, k, p'. repeat split; auto. apply Hk. exact H.
    + right. destruct anc as [|a anc].
      { destruct H as (? & ? & ? & ? & ? & ? & ? & ? & ? & H & _). discriminate. }
      apply in_under. exists p'. split; [reflexivity|]. apply IH. exact H.
Qed.

Lemma in_h_choices toks : forall up ctx p t,
  In (p, t) (h_choices toks up ctx) <-> through up ctx toks p t.
Proof.
  induction toks as [|w rest IH]; intros up ctx p t.
  - split; [intros []|]. intros (? & ? & ? & ? & ? & ? & ? & ? & ? & _ & H & _). discriminate.
  - cbn [h_choices]. destruct ctx as [|[| |id name en desc pr kids] anc];
      try (split; [intros []|]; intros (? & ? & ? & ? & ? & ? & ? & ? & ? & H & _); discriminate).
    destruct en.
    2:{ split; [intros []|]. intros (? & ? & ? & ? & ? & ? & ? & ? & ? & H & _ & _ & -> & _). discriminate. }
    assert (Hw : str_eqb name w || (up && str_eqb (lit "..") w) = true <-> w = name \/ (up = true /\ w = lit "..")).
    { rewrite orb_true_iff, andb_true_iff, !str_eqb_eq. split; intros [H|H]; intuition congruence. }
    destruct (str_eqb name w || (up && str_eqb (lit "..") w)).
    2:{ split; [intros []|]. intros (? & ? & ? & ? & ? & ? & ? & ? & ? & H & H1 & H2 & _).
        injection H as <- <- <- <- <- <- <-. injection H1 as <- <-. apply Hw in H2. discriminate. }
    pose proof (proj1 Hw eq_refl) as Hw'.
    destruct rest as [|r rest].
    + cbn. split.
      * intros [H|[]]. injection H as <- <-. do 9 eexists. repeat split; auto.
      * intros (? & ? & ? & ? & ? & ? & ? & ? & ? & H & H1 & _ & _ & H2).
        injection H as <- <- <- <- <- <- <-. injection H1 as <- <-.
        destruct H2 as [(_ & -> & ->)|H2]; [auto|]. destruct (reading_nil_inv _ _ _ H2).
    + rewrite in_menu_choices by (congruence || exact IH). split.
      * intros H. do 9 eexists. repeat split; eauto.
      * intros (? & ? & ? & ? & ? & ? & ? & ? & ? & H & H1 & _ & _ & H2).
        injection H as <- <- <- <- <- <- <-. injection H1 as <- <-.
        destruct H2 as [(? & _)|H2]; [discriminate|exact H2].
Qed.

Lemma in_choices toks ctx p t : toks <> [] -> In (p, t) (choices toks ctx) <-> reading ctx toks p t.
Proof. intros H. apply in_menu_choices; [exact H|]. apply in_h_choices. Qed.

(** ** The choices are in dictionary order *)
Definition sorted (l : list choice) : Prop := StronglySorted (fun x y => before (fst x) (fst y)) l.

Lemma sorted_app l1 l2 : sorted l1 -> sorted l2 ->
  (forall x y, In x l1 -> In y l2 -> before (fst x) (fst y)) -> sorted (l1 ++ l2).
Proof.
  intros H1 H2 H. induction H1 as [|x l1 Hs IH Hx]; [exact H2|].
  cbn. constructor.
  - apply IH. intros y z Hy Hz. apply H; [right; exact Hy|exact Hz].
  - apply Forall_app. split; [exact Hx|]. apply Forall_forall. intros y Hy. apply H; [left; reflexivity|exact Hy].
Qed.
Lemma sorted_under i l : sorted l -> sorted (under i l).
Proof.
  intros H. induction H as [|x l Hs IH Hx]; constructor; [exact IH|].
  apply Forall_forall. intros y Hy. apply in_map_iff in Hy as (z & <- & Hz).
  cbn. apply before_tl. rewrite Forall_forall in Hx. auto.
Qed.
Lemma under_hd i l x : In x (under i l) -> exists p, fst x = i :: p.
Proof. intros H. apply in_map_iff in H as (z & <- & _). cbn. eauto. Qed.

Lemma sorted_kids f l : (forall k, In k l -> sorted (f k)) -> forall i, sorted (kids_choices f i l).
Proof.
  induction l as [|k l IH]; intros H i; cbn [kids_choices]; [constructor|].
  apply sorted_app.
  - apply sorted_under. apply H. left. reflexivity.
  - apply IH. intros k' Hk. apply H. right. exact Hk.
  - intros x (p, t) Hx Hy. apply under_hd in Hx as (p1 & ->).
    apply in_kids in Hy as (j & k' & p' & _ & -> & _). cbn. apply before_hd. lia.
Qed.

Lemma sorted_leaf k toks : sorted (leaf_choices k toks).
Proof.
  destruct k as [id name en desc pars pdesc h|id name en desc pdesc h|]; cbn; try constructor;
    destruct en; try constructor; destruct toks as [|t args]; try constructor.
  - destruct (_ && _); repeat constructor.
  - destruct (str_eqb _ _); repeat constructor.
Qed.

Lemma sorted_menu toks ctx : (forall up c, sorted (h_choices toks up c)) ->
  sorted (menu_choices (h_choices toks) toks ctx).
Proof.
  intros H. destruct ctx as [|m anc]; cbn [menu_choices]; [constructor|].
  destruct (cmd_en m); [|constructor].
  apply sorted_app.
  - apply sorted_kids. intros k _. destruct k; cbn [cmd_choices]; [apply (sorted_leaf (CFn _ _ _ _ _ _ _))|
      apply (sorted_leaf (CFree _ _ _ _ _ _))|apply H].
  - destruct anc; [constructor|]. apply sorted_under, H.
  - intros (p, t) y Hx Hy. destruct anc; [destruct Hy|].
    apply under_hd in Hy as (p1 & ->). apply in_kids in Hx as (j & k' & p' & Hn & -> & _).
    cbn. apply before_hd. apply nth_error_Some. congruence.
Qed.

Lemma sorted_h toks : forall up ctx, sorted (h_choices toks up ctx).
Proof.
  induction toks as [|w rest IH]; intros up ctx; cbn [h_choices]; [constructor|].
  destruct ctx as [|[| |id name en desc pr kids] anc]; try constructor.
  destruct en; [|constructor]. destruct (_ || _); [|constructor].
  destruct rest as [|r rest]; [repeat constructor|]. apply sorted_menu. exact IH.
Qed.
Lemma sorted_choices toks ctx : sorted (choices toks ctx).
Proof. apply sorted_menu, sorted_h. Qed.

Lemma before_irrefl p : ~ before p p.
Proof. induction p as [|i p IH]; intros H; inversion H; subst; [lia|auto]. Qed.
Lemma before_asym p q : before p q -> ~ before q p.
Proof. intros H. induction H; intros H2; inversion H2; subst; try lia; auto. Qed.

(** ** Execution tries the choices in order *)
Section Run.
Context (E : env) (bi : hid -> list value -> world -> hres).

(** What a reading does when it is tried. *)
Definition attempt (t : target) (w : world) : eres :=
  match t with
  | TGoto id => EDone true (set_cur id w)
  | TFree h args => run_free E h args w
  | TRun h pars args =>
      match convert_all E pars args with COk vs => run_fn E bi h vs w | CBad => EDone false w | CUB => EUB end
  end.
Fixpoint attempts (l : list choice) (w : world) : eres :=
  match l with [] => EDone false w | x :: l' => e_bind (attempt (snd x) w) (attempts l') end.

Lemma e_bind_ret r : e_bind r (EDone false) = r.
Proof. destruct r as [[] ?| | |]; reflexivity. Qed.
Lemma e_bind_assoc r f g : e_bind (e_bind r f) g = e_bind r (fun w => e_bind (f w) g).
Proof. destruct r as [[] ?| | |]; reflexivity. Qed.
Lemma e_bind_ext r f g : (forall w, f w = g w) -> e_bind r f = e_bind r g.
Proof. intros H. destruct r as [[] ?| | |]; cbn; auto. Qed.

Lemma attempts_app l1 : forall l2 w, attempts (l1 ++ l2) w = e_bind (attempts l1 w) (attempts l2).
Proof.
  induction l1 as [|x l1 IH]; intros l2 w; cbn; [reflexivity|].
  rewrite e_bind_assoc. apply e_bind_ext. intros w'. apply IH.
Qed.
Lemma attempts_under i l : forall w, attempts (under i l) w = attempts l w.
Proof. induction l as [|x l IH]; intros w; cbn; [reflexivity|]. apply e_bind_ext, IH. Qed.

Lemma leaf_attempts k toks w : toks <> [] -> (forall id n e d p ks, k <> CMenu id n e d p ks) ->
  exec_leaf E bi k toks w = attempts (leaf_choices k toks) w.
Proof.
  intros Hne Hk. destruct toks as [|t args]; [congruence|].
  destruct k as [id name en desc pars pdesc h|id name en desc pdesc h|]; [| |exfalso; eapply Hk; reflexivity].
  - destruct en; [|reflexivity]. cbn [exec_leaf leaf_choices negb].
    destruct (Nat.eqb _ _); [|reflexivity]. cbn [negb andb].
    destruct (str_eqb name t); [|reflexivity]. cbn. rewrite e_bind_ret. reflexivity.
  - destruct en; [|reflexivity]. cbn [exec_leaf leaf_choices negb].
    destruct (str_eqb name t); [|reflexivity]. cbn. rewrite e_bind_ret. reflexivity.
Qed.

Lemma try_all_kids f g l : (forall k w, f k w = attempts (g k) w) ->
  forall i w, try_all f l w = attempts (kids_choices g i l) w.
Proof.
  intros H. induction l as [|k l IH]; intros i w; cbn [try_all kids_choices]; [reflexivity|].
  rewrite attempts_app, attempts_under, H. apply e_bind_ext. intros w'. apply IH.
Qed.

Lemma menu_attempts toks ctx w : toks <> [] ->
  (forall up c w, handle E bi toks up c w = attempts (h_choices toks up c) w) ->
  scan E bi toks ctx w = attempts (menu_choices (h_choices toks) toks ctx) w.
Proof.
  intros Hne IH. destruct ctx as [|m anc]; [reflexivity|].
  cbn [scan menu_choices]. destruct (cmd_en m); [|reflexivity].
  cbn [negb]. rewrite attempts_app.
  rewrite (try_all_kids (exec E bi toks (m :: anc)) (cmd_choices (h_choices toks) toks (m :: anc)) _) with (i := 0).
  - apply e_bind_ext. intros w1. destruct anc; [reflexivity|]. rewrite attempts_under. apply IH.
  - intros k w1. destruct k as [id name en desc pars pdesc h|id name en desc pdesc h|id name en desc pr kids];
      cbn [exec cmd_choices].
    + apply leaf_attempts; congruence.
    + apply leaf_attempts; congruence.
    + apply IH.
Qed.

(** [HandleCommand] on the remaining words is [ScanCmds] of the menu. *)
Lemma handle_scan t r rest up id name en desc pr kids anc w :
  handle E bi (t :: r :: rest) up (CMenu id name en desc pr kids :: anc) w =
  if en && (str_eqb name t || (up && str_eqb (lit "..") t))
  then scan E bi (r :: rest) (CMenu id name en desc pr kids :: anc) w
  else EDone false w.
Proof.
  cbn [handle scan cmd_en cmd_kids]. destruct en; cbn [negb andb]; [|reflexivity].
  destruct (str_eqb name t || _); reflexivity.
Qed.

Lemma handle_attempts toks : toks <> [] -> forall up ctx w,
  handle E bi toks up ctx w = attempts (h_choices toks up ctx) w.
Proof.
  induction toks as [|t rest IH]; intros Hne up ctx w; [congruence|].
  destruct ctx as [|[| |id name en desc pr kids] anc]; try (cbn [handle h_choices]; reflexivity).
  destruct rest as [|r rest].
  - cbn [handle h_choices]. destruct en; cbn [negb]; [|reflexivity].
    destruct (str_eqb name t || _); reflexivity.
  - rewrite handle_scan. cbn [h_choices]. destruct en; cbn [andb]; [|reflexivity].
    destruct (str_eqb name t || _); [|reflexivity].
    apply menu_attempts; [congruence|]. intros. apply IH. congruence.
Qed.

Theorem scan_attempts toks ctx w : toks <> [] ->
  scan E bi toks ctx w = attempts (choices toks ctx) w.
Proof. intros H. apply menu_attempts; [exact H|]. intros. apply handle_attempts. exact H. Qed.

(** ** Conversion of arguments *)
Lemma convert_all_ok ps : forall ss vs, length ss = length ps ->
  convert_all E ps ss = COk vs <-> converts E ps ss vs.
Proof.
  induction ps as [|p ps IH]; intros [|s ss] vs Hl; try discriminate; cbn.
  - split; [intros H; injection H as <-; constructor|intros H; inversion H; reflexivity].
  - split.
    + destruct (convert E p s) as [v| |] eqn:Hv; cbn; try discriminate.
      destruct (convert_all E ps ss) as [vs'| |] eqn:Hvs; cbn; try discriminate.
      intros H. injection H as <-. constructor; [exact Hv|]. apply IH; [injection Hl; auto|exact Hvs].
    + intros H. inversion H as [|? ? ? ? v vs' Hv Hvs]; subst. rewrite Hv. cbn.
      apply IH in Hvs; [rewrite Hvs; reflexivity|injection Hl; auto].
Qed.
Lemma convert_all_bad ps : forall ss, length ss = length ps ->
  convert_all E ps ss = CBad <-> mismatch E ps ss.
Proof.
  induction ps as [|p ps IH]; intros [|s ss] Hl; try discriminate; cbn.
  - split; [discriminate|intros H; inversion H].
  - split.
    + destruct (convert E p s) as [v| |] eqn:Hv; cbn; try discriminate.
      * destruct (convert_all E ps ss) as [vs'| |] eqn:Hvs; cbn; try discriminate.
        intros _. eapply mm_later; [exact Hv|]. apply IH; [injection Hl; auto|exact Hvs].
      * intros _. apply mm_here. exact Hv.
    + intros H. inversion H as [? ? ? ? Hv|? ? ? ? v Hv Hm]; subst.
      * rewrite Hv. reflexivity.
      * rewrite Hv. cbn. apply IH in Hm; [rewrite Hm; reflexivity|injection Hl; auto].
Qed.

Definition well_sized (t : target) : Prop :=
  match t with TRun _ pars args => length args = length pars | _ => True end.
Lemma reading_sized ctx toks p t : reading ctx toks p t -> well_sized t.
Proof. intros H. induction H; cbn; auto. Qed.

Lemma unusable_dec t : well_sized t -> {unusable E t} + {~ unusable E t}.
Proof.
  destruct t as [h pars args|h args|id]; intros Hs.
  - destruct (convert_all E pars args) eqn:Hc.
    + right. intros H. inversion H; subst. apply convert_all_bad in H1; [congruence|exact Hs].
    + left. constructor. apply convert_all_bad; [exact Hs|exact Hc].
    + right. intros H. inversion H; subst. apply convert_all_bad in H1; [congruence|exact Hs].
  - right. intros H. inversion H.
  - right. intros H. inversion H.
Qed.
Lemma unusable_attempt t w : well_sized t -> unusable E t -> attempt t w = EDone false w.
Proof.
  intros Hs H. inversion H; subst. cbn. apply convert_all_bad in H0; [rewrite H0; reflexivity|exact Hs].
Qed.

Lemma attempts_skip l w : Forall (fun x => well_sized (snd x) /\ unusable E (snd x)) l -> attempts l w = EDone false w.
Proof.
  intros H. induction H as [|x l (Hs & Hu) _ IH]; [reflexivity|]. cbn.
  rewrite unusable_attempt by assumption. exact IH.
Qed.

(** ** The theorems of C28 *)
Lemma scan_no_match toks ctx w : toks <> [] -> no_match E ctx toks -> scan E bi toks ctx w = EDone false w.
Proof.
  intros Hne H. rewrite scan_attempts by assumption. apply attempts_skip.
  apply Forall_forall. intros (p, t) Hin. apply in_choices in Hin; [|assumption].
  split; [eapply reading_sized; eassumption|]. eapply H. exact Hin.
Qed.

(** The choices up to the first match are unusable. *)
Lemma first_split toks ctx t : toks <> [] -> first_match E ctx toks t ->
  exists l1 p l2, choices toks ctx = l1 ++ (p, t) :: l2 /\
    Forall (fun x => well_sized (snd x) /\ unusable E (snd x)) l1.
Proof.
  intros Hne (p & Hr & Hu & Hb). apply in_choices in Hr; [|assumption].
  apply in_split in Hr as (l1 & l2 & Heq). exists l1, p, l2. split; [exact Heq|].
  apply Forall_forall. intros (p', t') Hin.
  assert (Hrd : reading ctx toks p' t').
  { apply in_choices; [assumption|]. rewrite Heq. apply in_or_app. left. exact Hin. }
  split; [eapply reading_sized; exact Hrd|].
  apply (Hb p'); [exact Hrd|].
  pose proof (sorted_choices toks ctx) as Hs. rewrite Heq in Hs.
  clear - Hs Hin. induction l1 as [|x l1 IH]; [destruct Hin|].
  cbn in Hs. inversion Hs as [|? ? Hs' Hx]; subst. destruct Hin as [->|Hin].
  - rewrite Forall_forall in Hx. apply (Hx (p, t)). apply in_or_app. right. left. reflexivity.
  - apply IH; assumption.
Qed.

Lemma scan_first toks ctx t w : toks <> [] -> first_match E ctx toks t ->
  (forall w', attempt t w <> EDone false w') ->
  scan E bi toks ctx w = attempt t w.
Proof.
  intros Hne Hf Hd. destruct (first_split toks ctx t Hne Hf) as (l1 & p & l2 & Heq & Hl1).
  rewrite scan_attempts, Heq, attempts_app, attempts_skip by assumption. cbn.
  destruct (attempt t w) as [[] ?| | |]; try reflexivity. congruence.
Qed.

(** Every line has a first match or none. *)
Lemma match_or_not toks ctx : toks <> [] -> no_match E ctx toks \/ exists t, first_match E ctx toks t.
Proof.
  intros Hne.
  assert (H : forall l : list choice, (forall p t, In (p, t) l -> well_sized t) ->
    Forall (fun x => unusable E (snd x)) l \/
    exists l1 p t l2, l = l1 ++ (p, t) :: l2 /\ Forall (fun x => unusable E (snd x)) l1 /\ ~ unusable E t).
  { induction l as [|(p, t) l IH]; intros Hs; [left; constructor|].
    destruct (unusable_dec t (Hs p t (or_introl eq_refl))) as [Hu|Hu].
    - destruct IH as [IH|(l1 & p' & t' & l2 & -> & H1 & H2)].
      + intros p' t' Hin. apply (Hs p'). right. exact Hin.
      + left. constructor; assumption.
      + right. exists ((p, t) :: l1), p', t', l2. split; [reflexivity|]. split; [constructor; assumption|exact H2].
    - right. exists [], p, t, l. split; [reflexivity|]. split; [constructor|exact Hu]. }
  destruct (H (choices toks ctx)) as [Hl|(l1 & p & t & l2 & Heq & Hl & Hu)].
  - intros p t Hin. apply in_choices in Hin; [|assumption]. eapply reading_sized. exact Hin.
  - left. intros p t Hr. apply in_choices in Hr; [|assumption]. rewrite Forall_forall in Hl. apply (Hl _ Hr).
  - right. exists t, p. split; [apply in_choices; [assumption|]; rewrite Heq; apply in_or_app; right; left; reflexivity|].
    split; [exact Hu|]. intros p' t' Hr Hb. apply in_choices in Hr; [|assumption]. rewrite Heq in Hr.
    apply in_app_or in Hr as [Hr|[Hr|Hr]].
    + rewrite Forall_forall in Hl. apply (Hl _ Hr).
    + injection Hr as <- <-. destruct (before_irrefl _ Hb).
    + pose proof (sorted_choices toks ctx) as Hs. rewrite Heq in Hs.
      exfalso. clear - Hs Hr Hb. induction l1 as [|x l1 IH]; cbn in Hs; inversion Hs as [|? ? Hs' Hx]; subst.
      * rewrite Forall_forall in Hx. apply Hx in Hr. apply (before_asym _ _ Hb Hr).
      * auto.
Qed.

Lemma first_unique toks ctx t t' : toks <> [] -> first_match E ctx toks t -> first_match E ctx toks t' -> t = t'.
Proof.
  intros Hne H H'. destruct (first_split _ _ _ Hne H) as (l1 & p & l2 & Heq & H1).
  destruct (first_split _ _ _ Hne H') as (l1' & p' & l2' & Heq' & H1').
  destruct H as (? & _ & Hu & _), H' as (? & _ & Hu' & _).
  rewrite Heq in Heq'. clear - Heq' H1 H1' Hu Hu'. revert l1' H1' Heq'.
  induction H1 as [|x l1 Hx H1 IH]; intros l1' H1' Heq; destruct H1' as [|y l1' Hy H1'].
  - injection Heq. auto.
  - injection Heq as <- _. tauto.
  - injection Heq as -> _. tauto.
  - injection Heq as _ Heq. eapply IH; eassumption.
Qed.
End Run.
