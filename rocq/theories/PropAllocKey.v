(** * C114: TAB, Clear and all editing keys when memory runs out *)

From Verif Require Import Base HistoryModel HistorySpec TerminalModel TerminalSpec PrefixSpec PrefixProofs
  AllocModel AllocSpec AllocTermModel AllocTermSpec AllocBrowseModel AllocBrowseSpec AllocKeyModel AllocKeySpec AllocKeyProofs.
Open Scope nat_scope.
Open Scope list_scope.

(** C114: whatever allocations fail, any sequence of editing keys is defined, and history and
    line stay as they may be without failures (C109, C112). *)
Theorem C114_defined : forall ltr tty ks size h t e, size >= 1 -> reachable_m size h -> holds t e ->
  exists h' t' e', s_run ltr tty ks h t = Some (h', t') /\ reachable_m size h' /\ holds t' e'.
Proof. exact s_defined. Qed.
Print Assumptions C114_defined.

(** A TAB that fails leaves the text of the line as it was; one that succeeds does as it
    does with memory (C52).  The cursor goes to the start if the line cannot be shown again. *)
Theorem C114_tab : forall ltr tty color pf ok l t e, holds t e ->
  exists o n, tab_does (tm_line t) l o n /\
  ((came_to n ok /\ (forall s, o = Some s -> can_set s e (from n ok)) /\
    exists t', tab_m ltr tty color pf ok l t = KDone t' /\
      match o with None => t' = t | Some s => holds t' (mkEd (rev s) []) end) \/
   (~ (came_to n ok /\ (forall s, o = Some s -> can_set s e (from n ok))) /\
    exists t' e', tab_m ltr tty color pf ok l t = KThrew t' /\ holds t' e' /\
      (e' = e \/ (e' = mkEd [] (ed_text e) /\ n = 5 /\ came_to 5 ok)))).
Proof. exact tab_cases. Qed.
Print Assumptions C114_tab.

(** So does Clear; the cursor goes to the start once the prompt is written. *)
Theorem C114_clear : forall ltr tty color pf ok t e, holds t e ->
  (came_to 2 ok /\ can_set (tm_line t) e (from 2 ok) /\
    exists t', clear_m ltr tty color pf ok t = KDone t' /\ holds t' (mkEd (rev (tm_line t)) [])) \/
  (~ (came_to 2 ok /\ can_set (tm_line t) e (from 2 ok)) /\
    exists t' e', clear_m ltr tty color pf ok t = KThrew t' /\ holds t' e' /\ e' = if ok 0 && ok 1 then mkEd [] (ed_text e) else e).
Proof. exact clear_cases. Qed.
Print Assumptions C114_clear.

Definition lots : nat -> bool := fun _ => true.
Definition short (n : nat) : nat -> bool := fun m => negb (Nat.eqb m n).
Definition demo_t : term := mkTerm (lit "ab") 1 false.
Lemma demo_holds : holds demo_t (mkEd (lit "a") (lit "b")).
Proof. split; reflexivity. Qed.

(** A Clear that fails may move the cursor: what is typed next goes to another place. *)
Theorem C114_cursor_refuted : exists ok t e t' t2 out, holds t e /\ clear_m true true false false ok t = KThrew t' /\
  keypressed_m true true false lots (KAscii "x") t' = TDone out SyNothing t2 /\ tm_line t2 = lit "xab" /\
  ed_text (ed_key (KAscii "x") e) = lit "axb".
Proof.
  exists (short 2), demo_t, (mkEd (lit "a") (lit "b")). eexists _, _, _. split; [exact demo_holds|].
  split; [vm_compute; reflexivity|]. split; [vm_compute; reflexivity|]. split; reflexivity.
Qed.
Print Assumptions C114_cursor_refuted.

Definition demo_strokes : list stroke_m :=
  [mkStrokeM (SKey (KAscii "x")) true true (short 1); mkStrokeM (STab [lit "abc"; lit "abd"]) false true lots;
   mkStrokeM SUp false true (short 2); mkStrokeM SDown true true (short 0); mkStrokeM SClear true true (short 4);
   mkStrokeM (STab [lit "abc"]) false false (short 3); mkStrokeM (STab [lit "abc"]) false false lots; mkStrokeM (SKey KBackspace) true true (short 0)].
Example C114_nonvacuous : exists h' t', s_run true true demo_strokes (load_commands (history_init 5) [lit "p"]) demo_t = Some (h', t') /\
  reachable_m 5 (load_commands (history_init 5) [lit "p"]) /\ tm_line t' = lit "abc" /\ committed h' = [lit "p"].
Proof.
  eexists _, _. split; [vm_compute; reflexivity|]. split; [exists [(OLoad [lit "p"], lots)]; reflexivity|]. split; reflexivity.
Qed.
Example C114_tab_nonvacuous :
  (exists t', tab_m true true false false lots [lit "abc"; lit "abd"] (mkTerm (lit "a") 1 false) = KDone t' /\ tm_line t' = lit "ab") /\
  (exists t', tab_m true true false false (short 5) [lit "abc"; lit "abd"] demo_t = KThrew t' /\ tm_line t' = lit "ab" /\ tm_pos t' = 0) /\
  (exists t', tab_m true true false false (short 4) [lit "abc"; lit "abd"] demo_t = KThrew t' /\ tm_pos t' = 1) /\
  tab_does (lit "ab") [] None 2.
Proof.
  split; [eexists; split; [vm_compute; reflexivity|reflexivity]|].
  split; [eexists; split; [vm_compute; reflexivity|split; reflexivity]|].
  split; [eexists; split; [vm_compute; reflexivity|reflexivity]|]. constructor.
Qed.
Example C114_clear_nonvacuous :
  (exists t', clear_m true true false false lots demo_t = KDone t' /\ tm_line t' = lit "ab" /\ tm_pos t' = 2) /\
  (exists t', clear_m true true false false (short 1) demo_t = KThrew t' /\ tm_line t' = lit "ab" /\ tm_pos t' = 1).
Proof. split; eexists; (split; [vm_compute; reflexivity|split; reflexivity]). Qed.
