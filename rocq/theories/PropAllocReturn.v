(** * C115: Return when memory runs out *)

From Verif Require Import Base HistoryModel HistorySpec TerminalModel TerminalSpec MenuModel SessionModel SessionSpec
  ProcessorModel ProcessorSpec ProcessorProofs AllocReturnModel AllocReturnSpec AllocReturnProofs FromStringModel Demo PropProcessor.
Open Scope nat_scope.
Open Scope list_scope.

(** C115: when [bad_alloc] leaves the handling of Return, the input device is on exactly if
    the line editor failed; once the line was handed over the device stays off. *)
Theorem C115_input : forall E fuel ltr tty color color' ok p e p', holds (p_term p) e ->
  input_on (w_sid (p_world p)) (w_trace (p_world p)) = true ->
  return_m E (S fuel) ltr tty color color' ok p = RThrew p' ->
  input_on (w_sid (p_world p)) (w_trace (p_world p')) = negb (ok 0 && ok 1).
Proof. exact ret_input. Qed.
Print Assumptions C115_input.

(** Then either the line is still in the editor and nothing but a row was written; or the
    editor is empty, and the line was lost (no command ran, menus, current menu and entries
    of the history are as before) or was run in full, only the prompt being missing. *)
Theorem C115_line : forall E fuel ltr tty color color' ok p e p', holds (p_term p) e ->
  return_m E (S fuel) ltr tty color color' ok p = RThrew p' ->
  (holds (p_term p') e /\ p_world p' = out crlf (p_world p)) \/
  (holds (p_term p') (mkEd [] []) /\
   ((exists evs, w_trace (p_world p') = w_trace (p_world p) ++ evs /\ calls evs = 0 /\
      w_root (p_world p') = w_root (p_world p) /\ w_cur (p_world p') = w_cur (p_world p) /\
      view (w_hist (p_world p')) = view (w_hist (p_world p))) \/
    (exists w, feed E (S fuel) (ed_text e) (after_ret p) = FOk w /\
      (p_world p' = w \/ p_world p' = out (prompt_colour color') w)))).
Proof. exact ret_lost. Qed.
Print Assumptions C115_line.

(** Which of the ways it goes follows from the allocation that fails. *)
Theorem C115_which : forall E fuel ltr tty color color' ok p e, holds (p_term p) e ->
  let r := return_m E (S fuel) ltr tty color color' ok p in
  (ok 0 && ok 1 = false /\ exists t, holds t (if ok 0 then mkEd [] [] else e) /\ r = RThrew (mkProc (out crlf (p_world p)) t)) \/
  (ok 0 && ok 1 = true /\ ok 2 && ok 3 = false /\ exists w t, r = RThrew (mkProc w t) /\ holds t (mkEd [] []) /\
     AllocFeedModel.feed_m E (ok 2) (ok 3) (S fuel) (ed_text e) (after_ret p) = AllocFeedModel.MThrew w) \/
  (ok 0 && ok 1 = true /\ ok 4 = false /\ exists w t, feed E (S fuel) (ed_text e) (after_ret p) = FOk w /\
     w_exit w = false /\ holds t (mkEd [] []) /\ tm_force t = (tm_force (p_term p) || (ltr && color')) /\
     r = RThrew (mkProc (if ltr then out (prompt_colour color') w else w) t)) \/
  (ok 0 && ok 1 = true /\ r = RRan (press E (S fuel) tty (mkStroke KRet color color') p)).
Proof. exact ret_cases. Qed.
Print Assumptions C115_which.

(** If no [bad_alloc] leaves it, Return is handled as it is with memory (C53, C59); so it is
    if there is memory. *)
Theorem C115_ran : forall E fuel ltr tty color color' ok p e r, holds (p_term p) e ->
  return_m E (S fuel) ltr tty color color' ok p = RRan r -> r = press E (S fuel) tty (mkStroke KRet color color') p.
Proof. exact ret_ran. Qed.
Print Assumptions C115_ran.
Theorem C115_enough : forall E fuel ltr tty color color' ok p e, holds (p_term p) e -> (forall n, ok n = true) ->
  return_m E (S fuel) ltr tty color color' ok p = RRan (press E (S fuel) tty (mkStroke KRet color color') p).
Proof. exact ret_plenty. Qed.
Print Assumptions C115_enough.

(** Typing lines, the caller going on after every [bad_alloc]: if input is off at the end, some
    Return failed after its line was handed over; failures of editing keys, and of Return
    before that, do no harm. *)
Theorem C115_typing : forall E fuel ltr tty ks p p', forallb edits ks = true -> (exists e, holds (p_term p) e) ->
  input_on (w_sid (p_world p)) (w_trace (p_world p)) = true -> a_run E (S fuel) ltr tty ks p = Some p' ->
  input_on (w_sid (p_world p)) (w_trace (p_world p')) = false -> existsb (fun k => negb (unharmed k)) ks = true.
Proof. intros E fuel ltr tty ks p p' _. apply a_run_on. Qed.
Print Assumptions C115_typing.
Theorem C115_goes_on : forall E fuel ltr tty ks p p', forallb edits ks = true -> (exists e, holds (p_term p) e) ->
  input_on (w_sid (p_world p)) (w_trace (p_world p)) = true -> forallb unharmed ks = true ->
  a_run E (S fuel) ltr tty ks p = Some p' ->
  (exists e, holds (p_term p') e) /\ input_on (w_sid (p_world p)) (w_trace (p_world p')) = true.
Proof. intros E fuel ltr tty ks p p' _. apply a_run_line. Qed.
Print Assumptions C115_goes_on.

Definition typed_proc : proc := mkProc demo_world (mkTerm (lit "add 1 2") 7 false).
Lemma typed_holds : holds (p_term typed_proc) (mkEd (rev (lit "add 1 2")) []).
Proof. split; reflexivity. Qed.

(** The session does not survive a line there was no memory for: input is off. *)
Theorem C115_survives_refuted : exists ok p', ok 0 = true /\ ok 1 = true /\
  return_m full_env 3 true true false false ok typed_proc = RThrew p' /\
  input_on (w_sid (p_world p')) (w_trace (p_world p')) = false /\ w_exit (p_world p') = false.
Proof.
  exists (fun n => negb (Nat.eqb n 2)). eexists. split; [reflexivity|]. split; [reflexivity|]. split; [vm_compute; reflexivity|].
  split; vm_compute; reflexivity.
Qed.
Print Assumptions C115_survives_refuted.

(** A Return that fails may have run the command. *)
Theorem C115_nothing_refuted : exists ok p' a b,
  return_m full_env 3 true true false false ok typed_proc = RThrew p' /\
  w_trace (p_world p') = a ++ EvCall 0 0 [VInt 1; VInt 2] :: b.
Proof.
  exists (fun n => negb (Nat.eqb n 4)). eexists. exists [EvOut 0 crlf; EvInput 0 false]. eexists. split; [vm_compute; reflexivity|].
  vm_compute. reflexivity.
Qed.
Print Assumptions C115_nothing_refuted.

Example C115_nonvacuous : holds (p_term typed_proc) (mkEd (rev (lit "add 1 2")) []) /\
  input_on (w_sid (p_world typed_proc)) (w_trace (p_world typed_proc)) = true /\
  (exists p', return_m full_env 3 true true false false (fun _ => false) typed_proc = RThrew p' /\
     holds (p_term p') (mkEd (rev (lit "add 1 2")) [])) /\
  (exists p', return_m full_env 3 true true false false (fun _ => true) typed_proc = RRan (POk p') /\
     input_on (w_sid (p_world p')) (w_trace (p_world p')) = true).
Proof.
  split; [exact typed_holds|]. split; [vm_compute; reflexivity|]. split.
  - eexists. split; [vm_compute; reflexivity|]. split; reflexivity.
  - eexists. split; [vm_compute; reflexivity|]. vm_compute. reflexivity.
Qed.
(** A Return that fails in the line editor, a character that fails, and a Return with memory:
    the command runs; then a Return that fails in the prompt. *)
Example C115_typing_nonvacuous :
  let some := [ARet false false (fun n => negb (Nat.eqb n 0)); AEdit false (KAscii "3") (fun n => negb (Nat.eqb n 1));
               ARet false false (fun _ => true)] in
  let all := some ++ [ARet false false (fun n => negb (Nat.eqb n 4))] in
  forallb edits all = true /\ forallb unharmed some = true /\
  (exists p', a_run full_env 3 true true some typed_proc = Some p' /\ In (EvCall 0 0 [VInt 1; VInt 2]) (w_trace (p_world p'))) /\
  exists p', a_run full_env 3 true true all typed_proc = Some p' /\
    input_on (w_sid (p_world p')) (w_trace (p_world p')) = false.
Proof.
  split; [reflexivity|]. split; [reflexivity|]. split.
  - eexists. split; [vm_compute; reflexivity|]. vm_compute. do 4 right. left. reflexivity.
  - eexists. split; [vm_compute; reflexivity|]. vm_compute. reflexivity.
Qed.
