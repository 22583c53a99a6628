(** * The history when memory runs out (C109) *)

From Verif Require Import Base HistoryModel HistorySpec AllocModel AllocSpec AllocProofs.

(** Whatever allocations fail, all operations stay defined and the bound holds. *)
Theorem C109_safe : forall size os, size >= 1 ->
  exists h, hrun_m (history_init size) os = Some h /\ length (h_buf h) <= size /\
            show h <> None /\ get_commands h <> None.
Proof. exact m_safe. Qed.
Print Assumptions C109_safe.

(** With memory nothing differs from HistoryModel.v. *)
Theorem C109_enough : forall size os, (forall p n, In p os -> snd p n = true) ->
  hrun_m (history_init size) os = hrun (history_init size) (map fst os).
Proof. exact (fun size os => hrun_ok os (history_init size)). Qed.
Print Assumptions C109_enough.

(** Failures lead to no history that could not be reached without them, but for
    the number of commands; so all about entries, numbers and browsing holds. *)
Theorem C109_refines : forall size h, size >= 1 -> reachable_m size h ->
  exists g, reachable size g /\ alike h g.
Proof. exact m_refines. Qed.
Print Assumptions C109_refines.

(** A command that cannot be recorded leaves the entries as they were, and can
    be entered again with the result it would have had; but it is counted. *)
Theorem C109_new : forall size h ok s h', size >= 1 -> reachable_m size h ->
  new_command_m ok h s = AThrew h' ->
  view h' = view h /\ committed h' = committed h /\
  get_commands h' = Some (lastn (S (h_cmds h)) (committed h)) /\
  exists h1 h2, new_command h s = Some h1 /\ new_command h' s = Some h2 /\
    alike h2 h1 /\ h_cmds h2 = S (h_cmds h1).
Proof. exact m_new. Qed.
Print Assumptions C109_new.

(** Up does nothing, or moves without returning the text; Down always moves;
    loading keeps the commands before the one that failed. *)
Theorem C109_up : forall size h ok line h', size >= 1 -> reachable_m size h ->
  hstep_m h (OUp line) ok = AThrew h' -> h' = h \/ hstep h (OUp line) = Some h'.
Proof. exact m_up. Qed.
Print Assumptions C109_up.

(** Which of the two: storing the line comes first. *)
Theorem C109_up_exact : forall size h ok line, size >= 1 -> reachable_m size h ->
  exists h1, hstep h (OUp line) = Some h1 /\
    hstep_m h (OUp line) ok = (if ok 0 then if ok 1 then ADone h1 else AThrew h1 else AThrew h).
Proof. exact m_up_exact. Qed.
Print Assumptions C109_up_exact.
Theorem C109_load_exact : forall h ok l n, (forall m, m < n -> ok m = true) -> ok n = false -> n < length l ->
  exists h', hstep_m h (OLoad l) ok = AThrew h' /\ hstep h (OLoad (firstn n l)) = Some h'.
Proof. intros h ok l n A B N. eexists. split; [exact (load_exact l ok h n A B N)|reflexivity]. Qed.
Print Assumptions C109_load_exact.

Theorem C109_down : forall size h ok h', size >= 1 -> reachable_m size h ->
  hstep_m h ODown ok = AThrew h' -> hstep h ODown = Some h'.
Proof. exact m_down. Qed.
Print Assumptions C109_down.

Theorem C109_load : forall size h ok l h', size >= 1 -> reachable_m size h ->
  hstep_m h (OLoad l) ok = AThrew h' ->
  exists n, n < length l /\ hstep h (OLoad (firstn n l)) = Some h'.
Proof. exact m_load. Qed.
Print Assumptions C109_load.

(** What is stored: as many of the last entries as lines were entered, recorded
    or not. *)
Theorem C109_stored : forall size os h, size >= 1 -> hrun_m (history_init size) os = Some h ->
  get_commands h = Some (lastn (lines_entered (map fst os)) (committed h)).
Proof. exact m_stored. Qed.
Print Assumptions C109_stored.

(** No memory at all. *)
Definition never : nat -> bool := fun _ => false.
Definition always : nat -> bool := fun _ => true.

(** A session whose only command could not be recorded stores a command it
    loaded a second time. *)
Theorem C109_stored_refuted : exists h,
  hrun_m (history_init 5) [(OLoad [lit "a"; lit "b"], always); (ONew (lit "x"), never)] = Some h /\
  get_commands h = Some [lit "b"].
Proof. eexists. split; vm_compute; reflexivity. Qed.
Print Assumptions C109_stored_refuted.

(** An exception does not mean that nothing happened: Down moves to the newer
    entry, so the next one is skipped. *)
Theorem C109_strong_refuted : exists size h h', reachable_m size h /\
  hstep_m h ODown never = AThrew h' /\ h' <> h.
Proof.
  exists 5, (mkHistory 5 [lit "d"; lit "b"; lit "a"] 2 0 true 0%Z). eexists. split.
  - exists [(OLoad [lit "a"; lit "b"], always); (OUp (lit "d"), always); (OUp (lit "b"), always)]. vm_compute. reflexivity.
  - split; [vm_compute; reflexivity|]. intro E. discriminate (f_equal h_cur E).
Qed.
Print Assumptions C109_strong_refuted.

(** Failures of all kinds in one session. *)
Definition starved : list (hop * (nat -> bool)) :=
  [(OLoad [lit "a"; lit "b"; lit "c"], fun n => Nat.eqb n 0);  (* only "a" is loaded *)
   (OUp (lit "x"), never);                                     (* nothing *)
   (OUp (lit "x"), fun n => Nat.eqb n 0);                      (* moves, not shown *)
   (ONew (lit "y"), never);                                    (* counted, still browsing *)
   (ONew (lit "y"), always); (OBang (lit "!0"), fun n => Nat.eqb n 0); (ONew (lit "z"), never)].

Example C109_nonvacuous : exists h, hrun_m (history_init 3) starved = Some h /\
  view h = [(0%Z, lit "a"); (1%Z, lit "y")] /\ get_commands h = Some [lit "a"; lit "y"] /\
  lines_entered (map fst starved) = 4.
Proof. eexists. split; [vm_compute; reflexivity|]. split; [vm_compute; reflexivity|]. split; vm_compute; reflexivity. Qed.

Example C109_new_nonvacuous : exists h h', reachable_m 3 h /\ h_browse h = true /\
  new_command_m false h (lit "y") = AThrew h' /\ h_cur h' <> h_cur h.
Proof.
  exists (mkHistory 3 [lit "x"; lit "a"] 1 0 true 0%Z). eexists. split.
  - exists [(OLoad [lit "a"], always); (OUp (lit "x"), always)]. vm_compute. reflexivity.
  - split; [reflexivity|]. split; [vm_compute; reflexivity|]. discriminate.
Qed.

Example C109_up_nonvacuous : exists h h', reachable_m 3 h /\
  hstep_m h (OUp (lit "x")) (fun n => Nat.eqb n 0) = AThrew h' /\ h' <> h.
Proof.
  exists (mkHistory 3 [lit "a"] 0 0 false 0%Z). eexists. split.
  - exists [(OLoad [lit "a"], always)]. vm_compute. reflexivity.
  - split; [vm_compute; reflexivity|]. intro E. discriminate (f_equal h_browse E).
Qed.

Example C109_load_nonvacuous : exists h', hstep_m (history_init 3) (OLoad [lit "a"; lit "b"]) (fun n => Nat.eqb n 0) = AThrew h' /\
  h_buf h' = [lit "a"].
Proof. eexists. split; vm_compute; reflexivity. Qed.
