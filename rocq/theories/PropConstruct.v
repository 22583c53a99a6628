(** * C111: sessions that could not be constructed *)

From Verif Require Import Base OutStreamModel OutStreamSpec OutStreamProofs ConstructModel ConstructSpec ConstructProofs.
Open Scope nat_scope.
Open Scope list_scope.

(** C111: a session whose construction failed before its stream was registered was never
    there; one whose construction failed later is, for the global stream, a session that is
    never closed.  Every program is one of programs without failures. *)
Theorem C111_as_if : forall os, exists os', taken_as os os' /\ forall y, x_run y os = o_run y os'.
Proof. intro os. destruct (taken_total os) as (os' & T). exists os'. split; [exact T|exact (taken_run os os' T)]. Qed.
Print Assumptions C111_as_if.

(** Constructions either succeed or fail in one of these two ways. *)
Theorem C111_cases : forall i ok y,
  (whole ok /\ construct i ok y = Made (register i y)) \/
  (early ok /\ construct i ok y = Failed y) \/
  (late ok /\ construct i ok y = Failed (register i y)).
Proof. exact construct_cases. Qed.
Print Assumptions C111_cases.

(** So the stream of such a session goes on receiving what is broadcast. *)
Theorem C111_told : forall os a i b, taken_as os (a ++ Create i :: b) -> proper [] [] (a ++ Create i :: b) ->
  ~ In (Destroy i) b /\ ~ In (Create i) b -> Forall no_char b \/ Forall plain_op b ->
  exists y o, x_run o_init os = Some y /\ o_str y i = Some o /\ os_text o = told i false b.
Proof. intros os a i b T P L F. rewrite (taken_run _ _ T). exact (broadcast a i b P L F). Qed.
Print Assumptions C111_told.

(** After it was destroyed, every broadcast is undefined, until a session on a stream
    at the same place is closed. *)
Theorem C111_dangling : forall a i ok b y s c, late ok -> x_run o_init (a ++ XNew i ok :: b) = Some y ->
  ~ In (XOp (Close i)) b -> o_str y i = None -> xsputn s y = None /\ overflow c y = None.
Proof. exact left_dangling. Qed.
Print Assumptions C111_dangling.
Theorem C111_cleaned : forall a i y, x_run o_init (a ++ [XOp (Close i)]) = Some y -> ~ In i (o_reg y).
Proof. exact close_cleans. Qed.
Print Assumptions C111_cleaned.

(** Nothing else goes wrong: where streams outlive the sessions on them, a run is
    undefined only after the stream of a construction that failed late is destroyed. *)
Theorem C111_only : forall os, careful [] [] os -> x_run o_init os = None ->
  exists i ok, In (XNew i ok) os /\ late ok /\ In (XOp (Destroy i)) os.
Proof. exact only_late. Qed.
Print Assumptions C111_only.

(** Memory for the first [n] stages. *)
Definition up_to (n : nat) : stages := fun m => Nat.ltb m n.
Lemma up_to_late n : 4 <= n < 8 -> late (up_to n).
Proof.
  intro L. exists n. split; [exact L|]. split; [|apply Nat.ltb_irrefl]. intros m M. apply Nat.ltb_lt. exact M.
Qed.
Lemma up_to_early n : n < 4 -> early (up_to n).
Proof.
  intro L. exists n. split; [exact L|]. split; [|apply Nat.ltb_irrefl]. intros m M. apply Nat.ltb_lt. exact M.
Qed.
Lemma up_to_whole : whole (up_to 8).
Proof. intros m M. apply Nat.ltb_lt. exact M. Qed.
Lemma late_not_whole ok : late ok -> ~ whole ok.
Proof. intros L W. exact (whole_late ok W L). Qed.

(** A telnet session owns its stream, which goes with it when its construction fails: a
    broadcast to the others is undefined, though every stream outlives its sessions. *)
Definition telnet_demo : list xop :=
  [XOp (Create 1); XNew 1 (up_to 8); XOp (Create 2); XNew 2 (up_to 5); XOp (Destroy 2); XOp (Sputn (lit "a"))].
Lemma telnet_careful : careful [] [] telnet_demo.
Proof.
  unfold telnet_demo. apply cf_create; [intros []|]. apply cf_made; [exact up_to_whole|intros []|left; reflexivity|].
  apply cf_create; [intros [H|[]]; discriminate|].
  apply cf_failed; [apply late_not_whole, up_to_late; lia|intros [H|[]]; discriminate|left; reflexivity|].
  apply cf_destroy; [left; reflexivity|intros [H|[]]; discriminate|]. apply cf_sputn. apply cf_nil.
Qed.
Theorem C111_defined_refuted : exists os, careful [] [] os /\ x_run o_init os = None.
Proof. exists telnet_demo. split; [exact telnet_careful|reflexivity]. Qed.
Print Assumptions C111_defined_refuted.

Definition both_demo : list xop :=
  [XOp (Create 1); XNew 1 (up_to 2); XNew 1 (up_to 7); XOp (Sputn (lit "a")); XOp (Own 1 (lit "b"))].
Example C111_told_nonvacuous : exists a b, taken_as both_demo (a ++ Create 1 :: b) /\ proper [] [] (a ++ Create 1 :: b) /\
  (~ In (Destroy 1) b /\ ~ In (Create 1) b) /\ Forall no_char b /\ told 1 false b = lit "ab".
Proof.
  exists [], [Open 1; Sputn (lit "a"); Own 1 (lit "b")]. split.
  { apply ta_op. apply ta_early; [apply up_to_early; lia|]. apply ta_late; [apply up_to_late; lia|].
    apply ta_op. apply ta_op. apply ta_nil. }
  split; [cbn; tauto|]. split; [cbn; intuition discriminate|].
  split; [repeat (apply Forall_cons; [exact Logic.I|]); apply Forall_nil|reflexivity].
Qed.
Example C111_dangling_nonvacuous : exists y, late (up_to 5) /\
  x_run o_init ([XOp (Create 2)] ++ XNew 2 (up_to 5) :: [XOp (Destroy 2)]) = Some y /\
  ~ In (XOp (Close 2)) [XOp (Destroy 2)] /\ o_str y 2 = None /\ xsputn (lit "a") y = None.
Proof.
  eexists. split; [apply up_to_late; lia|]. split; [reflexivity|]. split; [cbn; intuition discriminate|]. split; reflexivity.
Qed.
Example C111_cleaned_nonvacuous : exists y,
  x_run o_init ([XOp (Create 2); XNew 2 (up_to 5); XNew 2 (up_to 8)] ++ [XOp (Close 2)]) = Some y /\ xsputn (lit "a") y <> None.
Proof. eexists. split; [reflexivity|]. cbn. discriminate. Qed.
Example C111_nonvacuous : careful [] [] telnet_demo /\ x_run o_init telnet_demo = None /\
  x_run o_init both_demo <> None /\ (forall y, construct 3 (up_to 3) y = Failed y).
Proof.
  split; [exact telnet_careful|]. split; [reflexivity|]. split; [cbn; discriminate|]. intro y. reflexivity.
Qed.
