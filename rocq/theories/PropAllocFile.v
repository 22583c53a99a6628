(** * C117: the history file when memory runs out *)

From Verif Require Import Base StorageModel StorageSpec FaultModel AllocFileModel AllocFileSpec AllocFileProofs.
Open Scope nat_scope.
Open Scope list_scope.

(** C117: a [Store] that throws leaves the file as it is; it could not copy a line it had read,
    or insert the commands. *)
Theorem C117_threw : forall line copy insert max f cmds f', store_m line copy insert max f cmds = (false, f') ->
  f' = f /\ (insert = false \/ exists k, threw_at line copy (length (f_commands f)) k).
Proof. exact store_threw. Qed.
Print Assumptions C117_threw.

(** One that returns has stored its commands, behind the lines of the file that could be read:
    all of them, or those before the first there was no memory to read. *)
Theorem C117_done : forall line copy insert max f cmds f', Forall one_line cmds ->
  store_m line copy insert max f cmds = (true, f') ->
  exists k, stopped_at line copy (length (f_commands f)) k /\ f_commands f' = lastn max (firstn k (f_commands f) ++ cmds).
Proof. exact store_done. Qed.
Print Assumptions C117_done.

(** [Commands] gives these lines, or throws. *)
Theorem C117_commands : forall line copy f,
  (exists k, stopped_at line copy (length (f_commands f)) k /\ commands_m line copy f = Some (firstn k (f_commands f))) \/
  (exists k, threw_at line copy (length (f_commands f)) k /\ commands_m line copy f = None).
Proof. exact commands_cases. Qed.
Print Assumptions C117_commands.

(** With memory, it is the storage of C18. *)
Theorem C117_enough : forall line copy max f cmds,
  (forall i, i < length (f_commands f) -> line i = true /\ copy i = true) ->
  store_m line copy true max f cmds = (true, f_store max f cmds).
Proof. exact store_enough. Qed.
Print Assumptions C117_enough.

(** What happens to the file could also be a failure of the device (C75): when reading, if
    [Store] returns, or when opening the file for writing, if it throws. *)
Theorem C117_as_fault : forall line copy insert max f cmds,
  exists r w, snd (store_m line copy insert max f cmds) = x_store r w max f cmds /\
    ((fst (store_m line copy insert max f cmds) = true /\ w = WOk) \/
     (fst (store_m line copy insert max f cmds) = false /\ w = WNoOpen)).
Proof. exact as_fault. Qed.
Print Assumptions C117_as_fault.

(** However many sessions end: the file holds, in order, some of the commands it held and of
    those whose [Store] returned, none of them altered. *)
Theorem C117_sessions : forall es f bs f', Forall (fun e => Forall one_line (en_cmds e)) es -> ends es f = (bs, f') ->
  part (f_commands f') (f_commands f ++ stored bs es).
Proof. intros es f bs f' O. exact (ends_part es O f bs f'). Qed.
Print Assumptions C117_sessions.

(** A [Store] that returns, with room for all, can lose everything that was in the file: if
    there was no memory to read its first line. *)
Theorem C117_kept_refuted : exists line copy max f cmds f', Forall one_line cmds /\
  length (f_commands f ++ cmds) <= max /\ f_commands f = [lit "a"; lit "b"] /\
  store_m line copy true max f cmds = (true, f') /\ f_commands f' = cmds.
Proof.
  exists (fun _ => false), (fun _ => true), 1000, (Some (put_lines [lit "a"; lit "b"])), [lit "c"]. eexists.
  split; [repeat constructor; unfold one_line; cbn; intuition discriminate|]. split; [cbn; lia|]. split; [reflexivity|].
  split; [reflexivity|reflexivity].
Qed.
Print Assumptions C117_kept_refuted.

(** Three sessions: the second throws, the third can read one line. *)
Example C117_nonvacuous :
  let es := [mkEnd (fun _ => true) (fun _ => true) true 3 [lit "x"; lit "y"];
             mkEnd (fun _ => true) (fun n => Nat.ltb n 2) true 3 [lit "lost"];
             mkEnd (fun n => Nat.ltb n 1) (fun _ => true) true 3 [lit "z"]] in
  let f := Some (put_lines [lit "a"; lit "b"]) in
  Forall (fun e => Forall one_line (en_cmds e)) es /\
  exists f', ends es f = ([true; false; true], f') /\ f_commands f' = [lit "b"; lit "z"] /\
    threw_at (fun _ => true) (fun n => Nat.ltb n 2) 3 2.
Proof.
  split; [repeat apply Forall_cons; try apply Forall_nil; unfold one_line; cbn; intuition discriminate|].
  eexists. split; [vm_compute; reflexivity|]. split; [reflexivity|]. split; [lia|]. split; [|split; reflexivity].
  intros i H. split; [reflexivity|]. apply Nat.ltb_lt. exact H.
Qed.
