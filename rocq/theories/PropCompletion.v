(** * C24-C27: properties of completion *)

From Verif Require Import Base FromStringModel SplitModel SplitSpec PrefixSpec HistoryModel StorageModel MenuModel SessionModel ResolveSpec SessionSpec TreeProofs CompletionModel CompletionSpec CompletionProofs Demo.
Open Scope nat_scope.
Open Scope list_scope.

(** C24: the completions are in strictly increasing dictionary order. *)
Theorem C24_increasing : forall P fuel line w l, get_completions P fuel line w = GOk l -> increasing l.
Proof. exact completions_sorted. Qed.
Print Assumptions C24_increasing.

(** In particular none is repeated. *)
Theorem C24_no_duplicates : forall P fuel line w l, get_completions P fuel line w = GOk l -> NoDup l.
Proof. intros P fuel line w l H. exact (increasing_nodup l (completions_sorted P fuel line w l H)). Qed.
Print Assumptions C24_no_duplicates.

Example C24_nonvacuous :
  get_completions (mkPlatform true false) 10 (lit " ") demo_world =
  GOk (map lit ["!"; "add"; "chg"; "exit"; "help"; "history"; "say"; "sub"]%string).
Proof. reflexivity. Qed.

(** C25: a text is offered iff the specification says so; the list of completions
    is determined by that (with C24) and does not depend on the fuel. *)
Theorem C25_exact : forall P fuel line w l, get_completions P fuel line w = GOk l ->
  unique_ids (w_root w) -> forall c, In c l <-> offered w line c.
Proof. exact completions_exact. Qed.
Print Assumptions C25_exact.

(** The same in terms of paths: in trees whose menus have non-empty names not
    starting with a dot, the completions are the paths to enabled commands of which
    the line is the beginning. *)
Theorem C25_paths : forall root ctx line c, undotted root -> chain root ctx ->
  (offers ctx line c <-> on_path ctx line c).
Proof. exact offers_on_path. Qed.
Print Assumptions C25_paths.

(** Every completion extends what was typed, up to blanks. *)
Theorem C25_extends : forall ctx line c, offers ctx line c -> is_prefix (squeeze line) (squeeze c).
Proof. exact offers_extends. Qed.
Print Assumptions C25_extends.

(** When all menus are enabled and names are plain words, a completion is the name
    of something that can be run (with fitting arguments) or entered. *)
Theorem C25_invocable : forall root ctx line c, open_tree root -> chain root ctx -> offers ctx line c ->
  exists ws k, split c = Some ws /\ leads ctx ws k /\ cmd_en k = true /\ invocable ctx ws k.
Proof. exact offers_invocable. Qed.
Print Assumptions C25_invocable.

Lemma demo_chains : forall m anc, chain demo_root (m :: anc) ->
  m = demo_root \/ m = demo_sub \/
  m = CMenu 15 (lit "deep") true [] (lit "down here") [CFn 16 (lit "y") true [] [] [] (HUser 0)].
Proof.
  intros m anc H. remember (m :: anc) as ctx eqn:E. revert m anc E.
  induction H as [Hm|k p anc' H IH Hk Hm]; intros m anc E; injection E as <- <-; [auto|].
  destruct (IH p anc' eq_refl) as [->|[->| ->]]; cbn in Hk;
    repeat (destruct Hk as [<-|Hk]; [try (destruct Hm as (? & ? & ? & ? & ? & ? & ?); discriminate); auto|]);
    destruct Hk.
Qed.
Example C25_nonvacuous :
  unique_ids (w_root demo_world) /\ undotted demo_root /\ open_tree demo_root /\
  get_completions (mkPlatform true false) 20 (lit " sub  d") demo_world = GOk [lit "sub deep"] /\
  get_completions (mkPlatform true false) 20 (lit "sub cli a") demo_world = GOk [lit "sub cli add"] /\
  get_completions (mkPlatform true false) 20 (lit "..") (set_cur 13 demo_world) =
    GOk (map lit [".. add"; ".. chg"; ".. say"; ".. sub"]%string).
Proof.
  split; [cbv; repeat constructor; cbn; intuition discriminate|].
  split; [|split; [|repeat split; reflexivity]].
  - intros m anc H. apply demo_chains in H as [->|[->| ->]]; do 2 eexists; (split; [reflexivity|discriminate]).
  - intros m anc H.
    assert (Hp : forall s, (match s with [] => false | _ => true end &&
      forallb (fun c => negb (existsb (Ascii.eqb c) [" "; "009"; "010"; """"; "'"; "\"; "!"]%char)) s)%bool = true -> plain_word s).
    { intros s Hs. apply andb_true_iff in Hs as (H1 & H2). split; [destruct s; discriminate|].
      rewrite forallb_forall in H2. apply Forall_forall. intros c Hc. apply H2 in Hc.
      unfold blank, quote, backslash, bang. repeat split; intros Hx;
        repeat match goal with HH : _ \/ _ |- _ => destruct HH end; subst c; discriminate. }
    apply demo_chains in H as [->|[->| ->]]; (split; [reflexivity|]);
      repeat (apply Forall_cons; [apply Hp; reflexivity|]); apply Forall_nil.
Qed.

(** C26: completion terminates: recursion is bounded by twice the length of the
    line, when no menu with an empty name is directly inside another one (in
    particular when no menu has an empty name). *)
Theorem C26_terminates : forall P fuel line w, no_empty_pair (w_root w) -> 2 * length line + 2 <= fuel ->
  get_completions P fuel line w <> GFuel.
Proof. exact completions_terminate. Qed.
Print Assumptions C26_terminates.

(** For characters the ctype functions accept it returns a list that does not
    depend on the fuel. *)
Theorem C26_total : forall P line w,
  ctype_line P line -> live w -> unique_ids (w_root w) -> no_empty_pair (w_root w) ->
  exists l, forall fuel, 2 * length line + 2 <= fuel -> get_completions P fuel line w = GOk l.
Proof. exact completions_total. Qed.
Print Assumptions C26_total.

(** Nested menus with empty names: the recursion never ends. *)
Theorem C26_empty_names_refuted : exists root, is_menu root /\ unique_ids root /\
  forall P fuel, get_completions P fuel [] (open_session 0 5 root 20 (StVolatile 10 []) []) = GFuel.
Proof.
  exists (CMenu 10 [] true [] [] [CMenu 11 [] true [] [] []]).
  split; [repeat eexists|]. split; [cbv; repeat constructor; cbn; intuition discriminate|].
  intros P fuel. unfold get_completions. cbn [trim_left].
  destruct (menu_completions_global P fuel []) as (g & Hg). rewrite Hg.
  cbn [open_session w_cur w_root cmd_id locate Nat.eqb menu_completions cmd_kids g_all].
  rewrite (proj1 (empty_pair_loops P 10 true [] [] 11 true [] [] fuel [] (Forall_nil _))). reflexivity.
Qed.
Print Assumptions C26_empty_names_refuted.

(** A line starting with a non-ASCII character, where char is signed: undefined
    behaviour. *)
Theorem C26_nonascii_refuted : exists line, forall fuel w,
  get_completions (mkPlatform true false) fuel line w = GUB.
Proof. exists ["200"%char]. reflexivity. Qed.
Print Assumptions C26_nonascii_refuted.

Example C26_nonvacuous : no_empty_pair (w_root demo_world) /\ live demo_world /\
  ctype_line (mkPlatform true false) (lit "sub deep").
Proof.
  split; [|split].
  - intros k p anc H Hk _. apply demo_chains in H as [->|[->| ->]]; discriminate.
  - exists [demo_root]. split; [constructor; repeat eexists|]. do 2 eexists. split; reflexivity.
  - repeat constructor.
Qed.

(** C27: completions are those of the tree without the disabled commands (disabled
    menus kept) ... *)
Theorem C27_hidden_from_completion : forall P fuel line w,
  get_completions P fuel line (set_root (drop_disabled (w_root w)) (w_next w) w) = get_completions P fuel line w.
Proof. exact completions_drop. Qed.
Print Assumptions C27_hidden_from_completion.

(** ... and each completion is the path to an enabled command or menu ... *)
Theorem C27_completion_enabled : forall ctx line c, offers ctx line c ->
  exists words k, leads ctx words k /\ c = join words /\ cmd_en k = true.
Proof.
  intros ctx line c H. destruct (offers_path ctx line c H) as (words & k & part & Hl & _ & He & _ & Hc).
  exists words, k. auto.
Qed.
Print Assumptions C27_completion_enabled.

(** ... but the contents of a disabled submenu are offered, though they cannot be
    run. *)
Theorem C27_contents_refuted : exists w line c l,
  get_completions (mkPlatform true false) 20 line w = GOk l /\ In c l /\
  (exists toks, split c = Some toks /\ unresolved quiet_env [w_root w] toks) /\
  cmd_name (w_root w) = lit "cli".
Proof.
  exists (open_session 0 5 (CMenu 10 (lit "cli") true [] (lit "cli")
            [CMenu 11 (lit "sub") false [] (lit "sub") [CFn 12 (lit "x") true [] [] [] (HUser 0)]]) 20 (StVolatile 10 []) []),
    (lit "sub"), (lit "sub x"), [lit "sub cli"; lit "sub x"].
  split; [reflexivity|]. split; [right; left; reflexivity|]. split; [|reflexivity].
  exists [lit "sub"; lit "x"]. split; [reflexivity|]. split; intros path t H.
  - assert (Hg : forall i k, nth_error (cmd_kids global_menu) i = Some k -> cmd_name k <> lit "sub").
    { intros i k Hi. apply nth_error_In in Hi. cbn in Hi.
      repeat (destruct Hi as [<-|Hi]; [discriminate|]). destruct Hi. }
    inversion H; subst; exfalso; eapply Hg; try eassumption; reflexivity.
  - assert (Hg : forall i k, nth_error [CMenu 11 (lit "sub") false [] (lit "sub") [CFn 12 (lit "x") true [] [] [] (HUser 0)]] i = Some k ->
      k = CMenu 11 (lit "sub") false [] (lit "sub") [CFn 12 (lit "x") true [] [] [] (HUser 0)]).
    { intros i k Hi. apply nth_error_In in Hi. destruct Hi as [<-|[]]. reflexivity. }
    inversion H; subst; match goal with Hi : nth_error _ _ = Some _ |- _ => apply Hg in Hi; try discriminate Hi end.
    match goal with Hi : CMenu _ _ _ _ _ _ = _, Hr : reading (_ :: _ :: _) _ _ _ |- _ =>
      injection Hi as -> -> -> -> ->; exfalso; inversion Hr; discriminate end.
Qed.
Print Assumptions C27_contents_refuted.

Example C27_completion_nonvacuous :
  cmd_en (nth 3 (cmd_kids demo_root) demo_root) = false /\
  get_completions (mkPlatform true false) 20 (lit "h") demo_world = GOk [lit "help"; lit "history"].
Proof. split; reflexivity. Qed.
