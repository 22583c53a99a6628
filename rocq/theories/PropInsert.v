(** * C106: which command [Menu::Insert] makes of a function *)

From Verif Require Import Base FromStringModel MenuModel SessionModel InsertModel InsertSpec InsertProofs Demo.
Open Scope nat_scope.
Open Scope list_scope.

(** A call makes a command of words of given types exactly if it is written in one of the five ways, the parameters are
    taken by value or constant reference and have those types, and the callable is an object with one constant [operator()], or
    a function that comes first and is followed by a help text.  The command has the help text and descriptions given. *)
Theorem C106_typed : forall args ps h d, insert_call args = Some (MFn ps h d) <-> exists k, asked args k h d /\ typed args k ps.
Proof. exact insert_fn. Qed.
Print Assumptions C106_typed.

(** It makes a command taking all words exactly for objects with one parameter, the vector of them. *)
Theorem C106_untyped : forall args h d, insert_call args = Some (MFree h d) <-> exists k, asked args k h d /\ untyped k.
Proof. exact insert_free. Qed.
Print Assumptions C106_untyped.

(** It is undefined exactly for two literals in braces in place of the help text. *)
Theorem C106_undefined : forall args,
  insert_call args = Some MUB <-> exists k, trap args k /\ (untyped k \/ exists ps, typed args k ps).
Proof. exact insert_ub. Qed.
Print Assumptions C106_undefined.

(** All other calls do not compile. *)
Theorem C106_rejected : forall args, insert_call args = None <->
  (forall k h d, asked args k h d -> ~ untyped k /\ forall ps, ~ typed args k ps) /\
  (forall k, trap args k -> ~ untyped k /\ forall ps, ~ typed args k ps).
Proof.
  intro args. split.
  - intro N. split.
    + intros k h d Ha. split.
      * intro Hu. assert (X : insert_call args = Some (MFree h d)) by (apply insert_free; exists k; split; assumption).
        rewrite N in X. discriminate.
      * intros ps Ht. assert (X : insert_call args = Some (MFn ps h d)) by (apply insert_fn; exists k; split; assumption).
        rewrite N in X. discriminate.
    + intros k Ha. split.
      * intro Hu. assert (X : insert_call args = Some MUB) by (apply insert_ub; exists k; split; [assumption|left; assumption]).
        rewrite N in X. discriminate.
      * intros ps Ht. assert (X : insert_call args = Some MUB) by (apply insert_ub; exists k; split; [assumption|right; exists ps; assumption]).
        rewrite N in X. discriminate.
  - intros [H1 H2]. destruct (insert_call args) as [[ps h d|h d|]|] eqn:Hi; [| | |reflexivity]; exfalso.
    + apply insert_fn in Hi. destruct Hi as [k [Ha Ht]]. exact (proj2 (H1 _ _ _ Ha) _ Ht).
    + apply insert_free in Hi. destruct Hi as [k [Ha Hu]]. exact (proj1 (H1 _ _ _ Ha) Hu).
    + apply insert_ub in Hi. destruct Hi as [k [Ha [Hu|[ps Ht]]]].
      * exact (proj1 (H2 _ Ha) Hu).
      * exact (proj2 (H2 _ Ha) _ Ht).
Qed.
Print Assumptions C106_rejected.

(** A typed command, given its name and words that are values of its types, calls the function with these values, and with no
    other number of words. *)
Theorem C106_called : forall E b args ps h d id name n c ws vs w,
  insert_call args = Some (MFn ps h d) -> made_cmd id name n (MFn ps h d) = Some c ->
  (words_as E ps ws vs -> exec_leaf E b c (name :: ws) w = run_fn E b (HUser n) vs w) /\
  (length ws <> length ps -> exec_leaf E b c (name :: ws) w = EDone false w) /\
  exists k, In (ACall k) args /\ length (c_pars k) = length ps.
Proof.
  intros E b args ps h d id name n c ws vs w Hi Hm. injection Hm as <-. split; [|split].
  - intro Hw. unfold exec_leaf. cbn [negb length].
    destruct Hw as [Hw HL]. replace (Nat.eqb (S (length ws)) (length ps + 1)) with true
      by (symmetry; apply Nat.eqb_eq; lia).
    cbn [negb]. rewrite str_eqb_refl, (convert_words E ps ws vs (conj Hw HL)). reflexivity.
  - intro HL. unfold exec_leaf. cbn [negb length].
    replace (Nat.eqb (S (length ws)) (length ps + 1)) with false by (symmetry; apply Nat.eqb_neq; lia). reflexivity.
  - apply insert_fn in Hi. destruct Hi as [k [Ha [Hv _]]]. exists k.
    split; [exact (asked_has _ _ _ _ Ha)|exact (same_length _ _ Hv)].
Qed.
Print Assumptions C106_called.

(** An untyped one is called with the words as they are, any number of them. *)
Theorem C106_called_words : forall E b args h d id name n c ws w,
  insert_call args = Some (MFree h d) -> made_cmd id name n (MFree h d) = Some c ->
  exec_leaf E b c (name :: ws) w = run_free E (HUser n) ws w /\ exists k, In (ACall k) args /\ length (c_pars k) = 1.
Proof.
  intros E b args h d id name n c ws w Hi Hm. injection Hm as <-. split.
  - unfold exec_leaf. cbn [negb]. rewrite str_eqb_refl. reflexivity.
  - apply insert_free in Hi. destruct Hi as [k [Ha [_ [q [Hq _]]]]]. exists k.
    split; [exact (asked_has _ _ _ _ Ha)|]. rewrite Hq. reflexivity.
Qed.
Print Assumptions C106_called_words.

(** Both are listed with the name, the descriptions given or else the types, and the help text. *)
Theorem C106_listed : forall args m id name n c h d what, insert_call args = Some m -> made_cmd id name n m = Some c ->
  (exists ps, m = MFn ps h d /\ what = map type_desc ps) \/ (m = MFree h d /\ what = [lit "<list of strings>"]) ->
  help_line c = lit " - " ++ name ++
    flat_map (fun x => lit " " ++ x) (match d with [] => what | _ => map (fun x => lit "<" ++ x ++ lit ">") d end) ++
    nl ++ tab ++ h ++ nl.
Proof. intros args m id name n c h d what _. apply listed. Qed.
Print Assumptions C106_listed.

(** Cases. *)
Definition adder : list par := [(ByValue, BParam (PInt Int)); (ByCRef, BParam PString)].
Definition lambda (l : list par) : callable := mkCall (Functor true) true l.
Definition plain (l : list par) : callable := mkCall Pointer true l.

Example C106_nonvacuous :
  insert_call [ACall (lambda adder); AText true (lit "Adds"); AList [lit "n"; lit "s"]] = Some (MFn [PInt Int; PString] (lit "Adds") [lit "n"; lit "s"]) /\
  insert_call [AVec [lit "n"]; ACall (lambda adder)] = Some (MFn [PInt Int; PString] [] [lit "n"]) /\
  insert_call [ACall (plain adder); AText false (lit "Adds")] = Some (MFn [PInt Int; PString] (lit "Adds") []) /\
  insert_call [ACall (lambda [(ByCRef, BWords)])] = Some (MFree [] []) /\
  insert_call [ACall (lambda adder); AList [lit "a"; lit "b"]] = Some MUB /\
  insert_call [ACall (lambda [(ByRef, BParam PString)])] = None /\
  insert_call [ACall (mkCall (Functor false) true adder)] = None /\
  words_as quiet_env [PInt Int; PString] [lit "12"; lit "x"] [VInt 12; VStr (lit "x")].
Proof.
  split; [reflexivity|]. split; [reflexivity|]. split; [reflexivity|]. split; [reflexivity|].
  split; [reflexivity|]. split; [reflexivity|]. split; [reflexivity|].
  split; [|reflexivity]. constructor; [reflexivity|]. constructor; [reflexivity|constructor].
Qed.

(** "A function that can be inserted with a help text can be inserted without." *)
Theorem C106_help_refuted : exists k t,
  (exists m, insert_call [ACall k; t] = Some m /\ m <> MUB) /\ insert_call [ACall k] = None.
Proof.
  exists (plain adder), (AText true (lit "Adds")). split; [|reflexivity].
  exists (MFn [PInt Int; PString] (lit "Adds") []). split; [reflexivity|discriminate].
Qed.
Print Assumptions C106_help_refuted.

(** "A function pointer can be inserted wherever a lambda with the same parameters can": not with the descriptions first, and
    not for all words. *)
Theorem C106_pointer_refuted : exists d t l1 l2,
  (exists m, insert_call [d; ACall (lambda l1); t] = Some m /\ m <> MUB) /\ insert_call [d; ACall (plain l1); t] = None /\
  (exists m, insert_call [ACall (lambda l2); t] = Some m /\ m <> MUB) /\ insert_call [ACall (plain l2); t] = None.
Proof.
  exists (AVec []), (AText true (lit "Adds")), adder, [(ByCRef, BWords)].
  split; [exists (MFn [PInt Int; PString] (lit "Adds") []); split; [reflexivity|discriminate]|].
  split; [reflexivity|]. split; [|reflexivity].
  exists (MFree (lit "Adds") []). split; [reflexivity|discriminate].
Qed.
Print Assumptions C106_pointer_refuted.

(** "What compiles is defined": the help text forgotten before two descriptions. *)
Theorem C106_braces_refuted : exists k a b, insert_call [ACall k; AList [a; b]] = Some MUB.
Proof. exists (lambda adder), (lit "n"), (lit "s"). reflexivity. Qed.
Print Assumptions C106_braces_refuted.
