(** * C113: browsing the history when memory runs out *)

From Verif Require Import Base HistoryModel HistorySpec TerminalModel TerminalSpec AllocModel AllocSpec AllocTermModel AllocTermSpec
  AllocBrowseModel AllocBrowseSpec AllocBrowseProofs.
Open Scope nat_scope.
Open Scope list_scope.

(** C113: whatever allocations fail, Up and Down are defined, and history and line stay
    as they may be without failures (C109, C112). *)
Theorem C113_defined : forall ltr tty ks size h t e, size >= 1 -> reachable_m size h -> holds t e ->
  exists rs h' t' e', b_run ltr tty ks h t = Some (rs, h', t') /\ reachable_m size h' /\ holds t' e'.
Proof. exact b_defined. Qed.
Print Assumptions C113_defined.

(** Up that fails does nothing, or moves in the history without showing the entry. *)
Theorem C113_up : forall ltr tty color ok size h t e, size >= 1 -> reachable_m size h -> holds t e ->
  exists s h1, previous h (tm_line t) = Some (s, h1) /\
  ((ok 0 && ok 1 = false /\ up_m ltr tty color ok h t = BThrew h t) \/
   (ok 0 && ok 1 = true /\ ~ (ok 2 = true /\ can_set s e (fun n => ok (3 + n))) /\
    exists t', up_m ltr tty color ok h t = BThrew h1 t' /\ holds t' e) \/
   (ok 0 && ok 1 = true /\ ok 2 = true /\ can_set s e (fun n => ok (3 + n)) /\
    exists t', up_m ltr tty color ok h t = BDone h1 t' /\ holds t' (mkEd (rev s) []))).
Proof. exact up_cases. Qed.
Print Assumptions C113_up.

(** Down that fails always moves. *)
Theorem C113_down : forall ltr tty color ok size h t e, size >= 1 -> reachable_m size h -> holds t e ->
  exists s h1, next h = Some (s, h1) /\
  ((~ ((ok 0 = true \/ h_cur h = 0) /\ can_set s e (fun n => ok (1 + n))) /\
    exists t', down_m ltr tty color ok h t = BThrew h1 t' /\ holds t' e) \/
   ((ok 0 = true \/ h_cur h = 0) /\ can_set s e (fun n => ok (1 + n)) /\
    exists t', down_m ltr tty color ok h t = BDone h1 t' /\ holds t' (mkEd (rev s) []))).
Proof. exact down_cases. Qed.
Print Assumptions C113_down.

(** Browsing keeps all entries, if after a failure Up is not pressed before a Down that
    succeeds. *)
Theorem C113_kept : forall ltr tty ks size h t e rs h' t', size >= 1 -> reachable_m size h -> holds t e ->
  h_browse h = true -> in_step h t -> b_run ltr tty ks h t = Some (rs, h', t') -> up_after_success true ks rs ->
  committed h' = committed h.
Proof. exact b_committed. Qed.
Print Assumptions C113_kept.

Definition lots : nat -> bool := fun _ => true.
Definition short (n : nat) : nat -> bool := fun m => negb (Nat.eqb m n).
Definition demo_h : history := mkHistory 9 [lit "d"; lit "b"; lit "a"] 0 0 true 0%Z.
Definition demo_t : term := mkTerm (lit "d") 1 false.
Lemma demo_reachable : reachable_m 9 demo_h.
Proof. exists [(OLoad [lit "a"; lit "b"], lots); (OUp (lit "d"), lots); (ODown, lots)]. reflexivity. Qed.
Lemma demo_holds : holds demo_t (mkEd (lit "d") []).
Proof. split; reflexivity. Qed.

(** Otherwise an entry is lost: with Up and Down alone, one is overwritten by the line
    that could not be replaced. *)
Theorem C113_kept_refuted : exists ks h t e rs h' t', reachable_m 9 h /\ holds t e /\ h_browse h = true /\ in_step h t /\
  b_run true true ks h t = Some (rs, h', t') /\ committed h = [lit "a"; lit "b"] /\ committed h' = [lit "a"; lit "d"].
Proof.
  exists [mkBkey true false (short 4); mkBkey true false lots], demo_h, demo_t, (mkEd (lit "d") []).
  eexists _, _, _. split; [exact demo_reachable|]. split; [exact demo_holds|]. split; [reflexivity|].
  split; [intro C; destruct C; reflexivity|]. split; [vm_compute; reflexivity|]. split; reflexivity.
Qed.
Print Assumptions C113_kept_refuted.

Definition demo_keys : list bkey :=
  [mkBkey true false lots; mkBkey true true (short 0); mkBkey false false (short 1); mkBkey false true lots; mkBkey true false (short 3);
   mkBkey false false lots; mkBkey true false lots; mkBkey true false lots].
Example C113_nonvacuous : exists rs h' t', b_run true false demo_keys demo_h demo_t = Some (rs, h', t') /\
  rs = [true; false; false; true; false; true; true; true] /\ up_after_success true demo_keys rs /\
  committed h' = [lit "a"; lit "b"] /\ tm_line t' = lit "a" /\ reachable_m 9 demo_h /\ in_step demo_h demo_t.
Proof.
  eexists _, _, _. split; [vm_compute; reflexivity|]. split; [reflexivity|]. split; [cbn; intuition discriminate|].
  split; [reflexivity|]. split; [reflexivity|]. split; [exact demo_reachable|]. intro C. destruct C. reflexivity.
Qed.
Example C113_up_nonvacuous : (exists t', up_m true true false (short 2) demo_h demo_t = BThrew (mkHistory 9 (h_buf demo_h) 1 0 true 0%Z) t') /\
  up_m true true false (short 1) demo_h demo_t = BThrew demo_h demo_t /\
  (exists t', up_m true true false lots demo_h demo_t = BDone (mkHistory 9 (h_buf demo_h) 1 0 true 0%Z) t' /\ tm_line t' = lit "b").
Proof.
  split; [eexists; vm_compute; reflexivity|]. split; [vm_compute; reflexivity|]. eexists. split; [vm_compute; reflexivity|reflexivity].
Qed.
Example C113_down_nonvacuous : let h := mkHistory 9 (h_buf demo_h) 2 0 true 0%Z in
  (exists t', down_m true true false (short 0) h demo_t = BThrew (mkHistory 9 (h_buf demo_h) 1 0 true 0%Z) t' /\ tm_line t' = lit "d") /\
  (exists t', down_m true true false lots h demo_t = BDone (mkHistory 9 (h_buf demo_h) 1 0 true 0%Z) t' /\ tm_line t' = lit "b").
Proof. split; eexists; (split; [vm_compute; reflexivity|reflexivity]). Qed.
