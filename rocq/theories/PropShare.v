(** * C72: a history file used by several processes *)

From Verif Require Import Base StorageModel StorageSpec ShareModel ShareSpec ShareProofs.
Open Scope nat_scope.
Open Scope list_scope.

(** C72: when no call begins during another one, the file, once no process is in a call, holds what
    the ideal storage holds after the calls in the order in which they were made, whatever
    the processes, their limits and the pieces in which files are read and written. *)
Theorem C72_serial : forall f0 l s, one_at_a_time (sh_init f0) l -> s_run l (sh_init f0) = Some s -> all_idle s ->
  Forall op_one_line (calls_made l) -> f_commands (sh_file s) = ideal (f_commands f0) (calls_made l).
Proof. exact serial_ideal. Qed.
Print Assumptions C72_serial.

(** When calls overlap: the commands of a [Store] are kept, as the most recent ones, if no other
    process opens the file for writing, or writes to it, from before this one does until
    it is done. *)
Theorem C72_last : forall f0 la i max cmds lb s1 lc s,
  s_run (la ++ CallStore i max cmds :: lb) (sh_init f0) = Some s1 -> calls_not i (lb ++ lc) -> before_opening s1 i ->
  sole_writer i s1 lc -> s_run lc s1 = Some s -> sh_proc s i = SIdle -> Forall one_line cmds ->
  exists old, f_commands (sh_file s) = lastn max (old ++ cmds).
Proof. exact last_kept. Qed.
Print Assumptions C72_last.
(** Whatever the processes do at the same time, each byte of the file stands where one of
    the calls had it to write (or where it was at the beginning), or is a zero that fills
    a gap. *)
Theorem C72_bytes : forall f0 l s f k b, s_run l (sh_init f0) = Some s -> sh_file s = Some f -> nth_error f k = Some b ->
  b = "000"%char \/ (exists f1, f0 = Some f1 /\ nth_error f1 k = Some b) \/ its_byte l k b.
Proof. exact bytes_from. Qed.
Print Assumptions C72_bytes.

(** Otherwise commands get lost, although there is room: two processes end at the same time. *)
Theorem C72_lost_refuted : exists l s,
  s_run l (sh_init (Some (put_lines [lit "x"]))) = Some s /\ all_idle s /\
  calls_made l = [SStore 1000 [lit "a"]; SStore 1000 [lit "b"]] /\ f_commands (sh_file s) = [lit "x"; lit "b"].
Proof.
  exists [CallStore 0 1000 [lit "a"]; CallStore 1 1000 [lit "b"]; GoOn 0 99; GoOn 1 99; GoOn 0 99; GoOn 1 99;
          GoOn 0 99; GoOn 0 99; GoOn 0 99; GoOn 1 99; GoOn 1 99; GoOn 1 99].
  eexists. split; [vm_compute; reflexivity|]. split; [intros [|[|i]]; reflexivity|]. split; reflexivity.
Qed.
Print Assumptions C72_lost_refuted.

(** And commands are read that nobody entered, when writes overlap: here the end of one, and
    two NUL characters. *)
Theorem C72_mixed_refuted : exists l s,
  s_run l (sh_init None) = Some s /\ all_idle s /\
  calls_made l = [SStore 1000 [lit "help"]; SStore 1000 [lit "xy"]] /\ f_commands (sh_file s) = [lit "xy"; lit "p"].
Proof.
  exists [CallStore 0 1000 [lit "help"]; CallStore 1 1000 [lit "xy"]; GoOn 0 0; GoOn 0 2; GoOn 1 0; GoOn 1 99; GoOn 1 0; GoOn 0 99; GoOn 0 0].
  eexists. split; [vm_compute; reflexivity|]. split; [intros [|[|i]]; reflexivity|]. split; reflexivity.
Qed.
Print Assumptions C72_mixed_refuted.
Theorem C72_clear_refuted : exists l s,
  s_run l (sh_init None) = Some s /\ all_idle s /\
  calls_made l = [SStore 1000 [lit "ab"]; SClear] /\ f_commands (sh_file s) = [["000"; "000"]%char].
Proof.
  exists [CallStore 0 1000 [lit "ab"]; GoOn 0 0; GoOn 0 1; CallClear 1; GoOn 0 0; GoOn 0 0].
  eexists. split; [vm_compute; reflexivity|]. split; [intros [|[|i]]; reflexivity|]. split; reflexivity.
Qed.
Print Assumptions C72_clear_refuted.

(** Two processes one after the other, reading and writing in pieces. *)
Example C72_nonvacuous :
  let l := [CallStore 0 2 [lit "a"; lit "b"]; GoOn 0 0; GoOn 0 0; GoOn 0 2; GoOn 0 0;
            CallStore 1 2 [lit "c"]; GoOn 1 2; GoOn 1 5; GoOn 1 0; GoOn 1 0; GoOn 1 99; GoOn 1 99] in
  one_at_a_time (sh_init None) l /\
  exists s, s_run l (sh_init None) = Some s /\ all_idle s /\ Forall op_one_line (calls_made l) /\
  f_commands (sh_file s) = [lit "b"; lit "c"].
Proof.
  split.
  - intros l1 a l2 s H Ha Hr.
    do 12 (destruct l1 as [|? l1]; cbn [app] in H; [injection H as <- _; first [solve [destruct Ha]|vm_compute in Hr; injection Hr as <-; intros [|[|i]]; reflexivity]|injection H as <- H]).
    destruct l1; discriminate.
  - eexists. split; [vm_compute; reflexivity|]. split; [intros [|[|i]]; reflexivity|]. split; [|reflexivity].
    repeat constructor; unfold one_line; cbn; intuition discriminate.
Qed.

(** Overlapping calls, the second process opening the file last: what the first one stored before is kept
    only by chance, the second one's commands always. *)
Example C72_last_nonvacuous : exists s1 s,
  s_run ([CallStore 0 9 [lit "a"]] ++ CallStore 1 9 [lit "b"] :: [GoOn 0 0; GoOn 0 99; GoOn 0 0]) (sh_init None) = Some s1 /\
  before_opening s1 1 /\ sole_writer 1 s1 [GoOn 1 0; GoOn 1 0; CallStore 0 9 [lit "z"]; GoOn 1 9; GoOn 0 9; GoOn 1 0] /\
  s_run [GoOn 1 0; GoOn 1 0; CallStore 0 9 [lit "z"]; GoOn 1 9; GoOn 0 9; GoOn 1 0] s1 = Some s /\
  sh_proc s 1 = SIdle /\ f_commands (sh_file s) = [lit "b"].
Proof.
  eexists. eexists. split; [vm_compute; reflexivity|]. split; [exact Logic.I|]. split.
  - intros l1 a l2 s H Hr Hw.
    do 6 (destruct l1 as [|? l1]; cbn [app] in H; [injection H as <- _; first [reflexivity|solve [destruct Hw]|vm_compute in Hr; injection Hr as <-; destruct Hw]|injection H as <- H]).
    destruct l1; discriminate.
  - split; [vm_compute; reflexivity|]. split; reflexivity.
Qed.
