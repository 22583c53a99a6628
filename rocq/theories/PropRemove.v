(** * C105: a history file that is removed or replaced while it is used *)

From Verif Require Import Base StorageModel StorageSpec ShareModel ShareSpec RemoveModel RemoveSpec RemoveProofs.
Open Scope nat_scope.
Open Scope list_scope.

(** If nothing begins, and nothing is done to the file, during a call, then the file is what the calls, removals and replacements
    make of it one after another. *)
Theorem C105_serial : forall f0 l d, undisturbed (d_init f0) l -> r_run l (d_init f0) = Some d -> r_idle d -> visible d = fold_left o_step (r_ops l) f0.
Proof. exact undisturbed_serial. Qed.
Print Assumptions C105_serial.

(** Whenever the file is removed or replaced: if no process is between the begin of a [Store] and opening the file for
    writing, all that follows is as if it began there, with the new file or none, and with idle processes: the processes that were
    writing do not matter any more. *)
Theorem C105_fresh : forall f0 la d f lb d', r_run la (d_init f0) = Some d -> none_begun d -> r_run (RSwap f :: lb) d = Some d' ->
  exists lb' t, some_of lb' lb /\ r_ops lb' = r_ops lb /\ r_run lb' (d_init f) = Some t /\ visible t = visible d'.
Proof. exact swapped_fresh. Qed.
Print Assumptions C105_fresh.

(** The commands of a [Store] are kept, as the most recent ones, if from before it opens the file for writing until it is done nobody
    else changes, removes or replaces the file of this name; whatever happened before, also to the file it read. *)
Theorem C105_last : forall f0 la i max cmds lb d1 lc d, r_run (la ++ RAct (CallStore i max cmds) :: lb) (d_init f0) = Some d1 -> r_goes i (lb ++ lc) -> r_before d1 i ->
  only_by i d1 lc -> r_run lc d1 = Some d -> d_proc d i = RIdle -> Forall one_line cmds -> exists old, f_commands (visible d) = lastn max (old ++ cmds).
Proof. exact last_writer. Qed.
Print Assumptions C105_last.

(** Without removals and replacements, this is C72. *)
Theorem C105_conservative : forall f0 l,
  match r_run (map RAct l) (d_init f0), s_run l (sh_init f0) with Some d, Some s => seen_as d s | None, None => True | _, _ => False end.
Proof. exact without_swaps. Qed.
Print Assumptions C105_conservative.

(** A complete [Store], a removal, another, a file put in place, a third; *)
Definition whole (i : nat) (cmds : list str) : list ract := map RAct [CallStore i 9 cmds; GoOn i 99; GoOn i 99; GoOn i 99; GoOn i 99; GoOn i 99].
Definition first_store (i : nat) (cmds : list str) : list ract := map RAct [CallStore i 9 cmds; GoOn i 99; GoOn i 99; GoOn i 99].
Definition quiet_day : list ract := first_store 0 [lit "a"] ++ RSwap None :: first_store 1 [lit "b"] ++ RSwap (Some (lit "x")) :: whole 0 [lit "c"].
Example C105_nonvacuous : undisturbed (d_init None) quiet_day /\ exists d, r_run quiet_day (d_init None) = Some d /\ r_idle d /\ f_commands (visible d) = [lit "x"; lit "c"]
  /\ length (r_ops quiet_day) = 5.
Proof.
  split.
  - intros l1 a l2 s E Hc Hr.
    repeat (destruct l1 as [|? l1]; [injection E as <- <-; first [destruct Hc; fail|vm_compute in Hr; injection Hr as <-; intros [|[|j]]; reflexivity]|
      injection E as <- E]). destruct l1; discriminate.
  - eexists. split; [vm_compute; reflexivity|]. split; [intros [|[|j]]; reflexivity|]. split; reflexivity.
Qed.
(** Process 0 is writing when the file is removed; process 1 stores into a new one, and both end. *)
Example C105_fresh_nonvacuous : exists la d lb d', r_run la (d_init (Some (put_lines [lit "a"]))) = Some d /\ none_begun d /\ ~ r_idle d /\
  r_run (RSwap None :: lb) d = Some d' /\ r_idle d' /\ In (RAct (GoOn 0 99)) lb /\ f_commands (visible d') = [lit "c"].
Proof.
  exists (map RAct [CallStore 0 9 [lit "b"]; GoOn 0 99; GoOn 0 99; GoOn 0 99; GoOn 0 1]). eexists.
  exists (map RAct [CallStore 1 9 [lit "c"]; GoOn 1 0; GoOn 0 99; GoOn 1 99; GoOn 1 0; GoOn 0 0]). eexists.
  split; [vm_compute; reflexivity|]. split; [intros [|i]; exact Logic.I|]. split; [intros H; specialize (H 0); discriminate|]. split; [vm_compute; reflexivity|].
  split; [intros [|[|i]]; reflexivity|]. split; [do 2 right; left; reflexivity|reflexivity].
Qed.
(** It is removed while process 1 reads; process 0, which was writing, goes on writing to the old one. *)
Example C105_last_nonvacuous : let f0 := Some (put_lines [lit "a"; lit "b"]) in
  let la := map RAct [CallStore 0 9 [lit "z"]; GoOn 0 99; GoOn 0 99] in let lb := [RAct (GoOn 1 1); RAct (GoOn 0 0); RSwap None] in
  let lc := map RAct [GoOn 0 99; GoOn 1 0; GoOn 1 9; GoOn 1 9; GoOn 1 9; GoOn 1 9; GoOn 1 9] in
  exists d1 d, r_run (la ++ RAct (CallStore 1 9 [lit "c"]) :: lb) (d_init f0) = Some d1 /\ r_before d1 1 /\ only_by 1 d1 lc /\ r_run lc d1 = Some d /\ d_proc d 1 = RIdle /\ r_goes 1 (lb ++ lc) /\
    f_commands (visible d) = [lit "a"; lit "b"; lit "z"; lit "c"].
Proof.
  cbn zeta. eexists. eexists. split; [vm_compute; reflexivity|]. split; [exact Logic.I|]. split; [|split; [vm_compute; reflexivity|split; [reflexivity|split; [|reflexivity]]]].
  2: { intros a Ha Hi. repeat (destruct Ha as [<-|Ha]; [first [eexists; reflexivity|discriminate Hi|destruct Hi]|]). destruct Ha. }
  intros l1 a l2 s E Hr Hc.
  repeat (destruct l1 as [|? l1]; [injection E as <- <-; vm_compute in Hr; injection Hr as <-; first [reflexivity|vm_compute in Hc; discriminate Hc]|injection E as <- E]). destruct l1; discriminate.
Qed.

(** Not so: what was removed stays removed. A [Store] that began before writes the old commands again. *)
Theorem C105_back_refuted : exists la lb d, r_run (la ++ RSwap None :: lb) (d_init (Some (put_lines [lit "secret"]))) = Some d /\ r_idle d /\
  r_ops lb = [] /\ In (lit "secret") (f_commands (visible d)).
Proof.
  exists (map RAct [CallStore 0 9 [lit "ls"]; GoOn 0 99; GoOn 0 99]), (map RAct [GoOn 0 99; GoOn 0 99; GoOn 0 99]). eexists. split; [vm_compute; reflexivity|].
  split; [intros [|i]; reflexivity|]. split; [reflexivity|left; reflexivity].
Qed.
Print Assumptions C105_back_refuted.
(** Not so: what is stored after a removal, or during it, is kept: a [Store] that returns after it may have written to the file that is gone. *)
Theorem C105_lost_refuted : exists la lb d, r_run (la ++ RSwap None :: lb) (d_init None) = Some d /\ r_idle d /\ r_ops la = [OCall (SStore 9 [lit "ls"])] /\ visible d = None.
Proof.
  exists (map RAct [CallStore 0 9 [lit "ls"]; GoOn 0 99]), (map RAct [GoOn 0 99; GoOn 0 99]). eexists. split; [vm_compute; reflexivity|].
  split; [intros [|i]; reflexivity|]. split; reflexivity.
Qed.
Print Assumptions C105_lost_refuted.
