(** * C101: a shared history file, when files cannot be used and processes are killed *)

From Verif Require Import Base StorageModel StorageSpec ShareModel ShareSpec FaultModel FaultSpec TroubleModel TroubleSpec TroubleProofs.
Open Scope nat_scope.
Open Scope list_scope.

(** C101: if no call begins during another one, then whatever fails and whoever is killed, what is left of the file is what is left of the
    commands stored since it was last cleared: in order, and shortened at most once for each failed write and each kill; *)
Theorem C101_salvaged : forall f0 l s, t_one_at_a_time (sh_init f0) l -> t_run l (sh_init f0) = Some s -> all_idle s -> Forall op_one_line (t_calls l) ->
  exists k, k <= hits l /\ salvaged k (t_entered (f_commands f0) l) (f_commands (sh_file s)).
Proof. exact t_salvaged. Qed.
Print Assumptions C101_salvaged.
(** each call, complete or not, did what one of the calls of C75 does. *)
Theorem C101_serial : forall f0 l s, t_one_at_a_time (sh_init f0) l -> t_run l (sh_init f0) = Some s -> all_idle s ->
  exists os, map intended os = t_calls l /\ write_errors os <= hits l /\ entered (f_commands f0) os = t_entered (f_commands f0) l /\ sh_file s = x_run os f0.
Proof. exact t_serial_calls. Qed.
Print Assumptions C101_serial.
(** When calls overlap: the commands of a [Store] that can write and is not killed are kept, as the most recent ones, if no other process opens the
    file for writing, or writes to it, from before this one does until it is done; however reading fails, and whatever happens to the others. *)
Theorem C101_last : forall f0 la i max cmds a lb s1 lc s, stores i max cmds a ->
  t_run (la ++ a :: lb) (sh_init f0) = Some s1 -> unhurt i (lb ++ lc) -> before_opening s1 i ->
  t_sole_writer i s1 lc -> t_run lc s1 = Some s -> sh_proc s i = SIdle -> Forall one_line cmds ->
  exists old, f_commands (sh_file s) = lastn max (old ++ cmds).
Proof. exact t_last_kept. Qed.
Print Assumptions C101_last.
(** Each byte of the file stands where one of the calls had it to write (or where it was at the beginning), or fills a gap. *)
Theorem C101_bytes : forall f0 l s f k b, t_run l (sh_init f0) = Some s -> sh_file s = Some f -> nth_error f k = Some b ->
  b = "000"%char \/ (exists f1, f0 = Some f1 /\ nth_error f1 k = Some b) \/ t_byte l k b.
Proof. exact t_bytes_from. Qed.
Print Assumptions C101_bytes.
(** Without failures, this is C72. *)
Theorem C101_conservative : forall l s, t_run (map TAct l) s = s_run l s.
Proof. exact t_conservative. Qed.
Print Assumptions C101_conservative.

(** A process is killed while it writes, a second one stores a command and a third one cannot open the file. *)
Definition bad_day : list tact :=
  [TAct (CallStore 0 100 [lit "rm /tmp/x"]); TAct (GoOn 0 9); TAct (GoOn 0 9); TAct (GoOn 0 0); TAct (GoOn 0 5); TKill 0;
   TAct (CallStore 1 100 [lit "ls"]); TAct (GoOn 1 99); TAct (GoOn 1 99); TAct (GoOn 1 0); TAct (GoOn 1 99); TAct (GoOn 1 0);
   TNoRead 2 100 [lit "who"]; TNoWrite 2; TNoClear 1].
(** A process cannot read all of the file; meanwhile another one is killed before it opens the file for writing. *)
Definition with_kill : list tact := [TReadError 0; TKill 1; TAct (GoOn 0 0); TAct (GoOn 0 99); TAct (GoOn 0 0)].
Example C101_nonvacuous :
  (exists s, t_one_at_a_time (sh_init (Some (put_lines [lit "a"]))) bad_day /\ t_run bad_day (sh_init (Some (put_lines [lit "a"]))) = Some s /\ all_idle s /\
     Forall op_one_line (t_calls bad_day) /\ hits bad_day = 1 /\ t_entered [lit "a"] bad_day = [lit "a"; lit "rm /tmp/x"; lit "ls"; lit "who"] /\
     f_commands (sh_file s) = [lit "a"; lit "rm /"; lit "ls"]) /\
  (exists s1 s, t_run ([TAct (CallStore 1 9 [lit "z"])] ++ TAct (CallStore 0 9 [lit "c"]) :: [TAct (GoOn 0 3)]) (sh_init (Some (put_lines [lit "a"; lit "bb"]))) = Some s1 /\
     unhurt 0 ([TAct (GoOn 0 3)] ++ with_kill) /\ before_opening s1 0 /\ t_sole_writer 0 s1 with_kill /\ t_run with_kill s1 = Some s /\ sh_proc s 0 = SIdle /\
     f_commands (sh_file s) = [lit "a"; lit "c"]).
Proof.
  split.
  - eexists. split.
    { intros l1 a l2 s E Hc Hr. unfold bad_day in E.
      repeat (destruct l1 as [|? l1]; [injection E as <- <-; first [destruct Hc; fail|vm_compute in Hr; injection Hr as <-; intros [|[|[|j]]]; reflexivity]|
        injection E as <- E]). destruct l1; discriminate. }
    split; [vm_compute; reflexivity|]. split; [intros [|[|[|j]]]; reflexivity|]. split; [repeat constructor; unfold one_line; cbn; intuition discriminate|].
    split; [reflexivity|]. split; reflexivity.
  - eexists. eexists. split; [vm_compute; reflexivity|]. split.
    { intros a Ha E. cbn [app with_kill In] in Ha. repeat (destruct Ha as [<-|Ha]; [first [left; eexists; reflexivity|right; reflexivity|discriminate E]|]). destruct Ha. }
    split; [exact Logic.I|]. split.
    { intros l1 a l2 s E Hr Hw. unfold with_kill in E. repeat (destruct l1 as [|? l1]; [injection E as <- <-; first [reflexivity|destruct Hw]|injection E as <- E]). destruct l1; discriminate. }
    split; [vm_compute; reflexivity|]. split; reflexivity.
Qed.

(** The file is emptied before it is written: a process killed in between leaves nothing, though only one command was stored and there was room. *)
Theorem C101_killed_refuted : exists f0 l s, t_one_at_a_time (sh_init f0) l /\ t_run l (sh_init f0) = Some s /\ all_idle s /\
  f_commands f0 = [lit "a"; lit "b"] /\ t_calls l = [SStore 100 [lit "c"]] /\ hits l = 1 /\ f_commands (sh_file s) = [].
Proof.
  exists (Some (put_lines [lit "a"; lit "b"])), [TAct (CallStore 0 100 [lit "c"]); TAct (GoOn 0 9); TAct (GoOn 0 9); TAct (GoOn 0 9); TKill 0]. eexists. split.
  { intros l1 a l2 s E Hc Hr.
    repeat (destruct l1 as [|? l1]; [injection E as <- <-; first [destruct Hc; fail|vm_compute in Hr; injection Hr as <-; intros [|j]; reflexivity]|
      injection E as <- E]). destruct l1; discriminate. }
  split; [vm_compute; reflexivity|]. split; [intros [|j]; reflexivity|]. split; [reflexivity|]. split; [reflexivity|]. split; reflexivity.
Qed.
Print Assumptions C101_killed_refuted.
