(** * C92: the example programs boostasio_nonowner_iocontext.cpp and standaloneasio_nonowner_iocontext.cpp *)

From Verif Require Import Base SplitSpec FromStringModel FromStringSpec FromStringProofs HistoryModel HistorySpec StorageModel TerminalModel MenuModel SessionModel
  ExampleModel ExampleSpec ExampleProofs CompleteModel CompleteSpec CompleteProofs NonownerModel NonownerSpec NonownerProofs.
Open Scope nat_scope.
Open Scope list_scope.

(** The lines that are typed can be read. *)
Definition legible (P : platform) (is : list ninput) : Prop := forall line, In (ITyped line) is -> readable P line.
Lemma legible_easy P is : legible P is -> Forall (easy_input P) is.
Proof. intros H. apply Forall_forall. intros [line| |] Hin; [exact (H line Hin)|exact Logic.I..]. Qed.

(** C92: whenever lines are typed, the timer expires and handlers are taken, the program has printed what the specification says
    for the first things that happened; for all of them when no handler waits; it returns 0 at the line exit. *)
Theorem C92_prints : forall P tty fuel is, strict P = false -> legible P is ->
  exists taken waiting o f, happens true is = taken ++ waiting /\ talk tty false fresh taken o f /\
    match no_main P tty (S (S fuel)) is with
    | NRuns p => (exists b, f = Waits b) /\ q_out p = asks tty false fresh ++ o /\ (q_queue p = [] -> waiting = [])
    | NReturned text => f = Leaves /\ text = asks tty false fresh ++ o
    | NUndef => f = Undef
    | NThrown | NDeep => False
    end.
Proof.
  intros P tty fuel is Hs Hl. destruct (main_talk P Hs tty fuel is (legible_easy P is Hl)) as (taken & waiting & o & f & H1 & H2 & H3).
  exists taken, waiting, o, f. split; [exact H1|]. split; [exact H2|]. unfold outcome in H3. destruct (no_main P tty (S (S fuel)) is); try exact H3.
  destruct H3 as (A & B & ->). split; [exact A|]. split; [exact B|]. intros ->. reflexivity.
Qed.
Print Assumptions C92_prints.
(** The specification gives no choice. *)
Theorem C92_unique : forall tty codes b hs o f o' f', talk tty codes b hs o f -> talk tty codes b hs o' f' -> o = o' /\ f = f'.
Proof. intros tty codes b hs o f o' f' H. exact (talk_unique tty codes b hs o f H o' f'). Qed.
Print Assumptions C92_unique.
(** No handler waits for ever. *)
Theorem C92_settles : forall P tty fuel is, exists n, match no_main P tty fuel (is ++ repeat IRun n) with NRuns p => q_queue p = [] | _ => True end.
Proof. exact settles. Qed.
Print Assumptions C92_settles.
(** Once the line exit was typed, the program returns when the handlers were taken (or something undefined came before). *)
Theorem C92_exits : forall P tty fuel is line, strict P = false -> legible P is -> In (ITyped line) is -> words line [lit "exit"] ->
  exists n, match no_main P tty (S (S fuel)) (is ++ repeat IRun n) with NReturned _ | NUndef => True | _ => False end.
Proof. intros P tty fuel is line Hs Hl. exact (program_exits P tty fuel is line Hs (legible_easy P is Hl)). Qed.
Print Assumptions C92_exits.

Definition evening : list ninput := [ITyped (lit "hello"); IRun; ITyped (lit "color"); IExpires; ITyped (lit "color"); IRun; IRun; IExpires; IRun;
  ITyped (lit "! 9"); ITyped (lit "! 1"); ITyped (lit "nocolor"); IRun; IRun; IRun; ITyped (lit "exit"); ITyped (lit "hello"); IRun; IRun].
Definition green_cli : str := esc "32" ++ esc "1" ++ lit "cli" ++ esc "0" ++ lit "> ".
Example C92_nonvacuous : let P := mkPlatform true false in legible P evening /\ In (ITyped (lit "exit")) evening /\ words (lit "exit") [lit "exit"] /\
  no_main P false 2 evening = NReturned (lit "cli> Hello, world" ++ nl ++ lit "cli> Colors ON" ++ nl ++ green_cli ++ lit "Timer expired!" ++ nl
    ++ lit "wrong command: color" ++ nl ++ green_cli
    ++ lit "Exception caught in cli handler: Index not found in history handling command: ! 9." ++ nl ++ green_cli
    ++ lit "wrong command: color" ++ nl ++ green_cli
    ++ lit "Colors OFF" ++ nl ++ lit "cli" ++ esc "0" ++ lit "> "
    ++ lit "Closing App..." ++ nl ++ lit "Goodbye and thanks for all the fish." ++ nl) /\
  exists p, no_main P false 2 (firstn 12 evening) = NRuns p /\ length (q_queue p) = 3.
Proof.
  cbn zeta. split; [|split; [|split; [|split]]].
  - intros line Hin. right. cbn [evening In] in Hin. repeat (destruct Hin as [Hin|Hin]; [try discriminate Hin; injection Hin as <-; repeat constructor|]). destruct Hin.
  - cbn [evening In]. tauto.
  - apply words_split. vm_compute. reflexivity.
  - vm_compute. reflexivity.
  - eexists. split; vm_compute; reflexivity.
Qed.
(** Refuted: the program can be used freely: a recall as the first line is undefined behaviour. *)
Theorem C92_recall_refuted : exists is, forall P tty fuel, no_main P tty (S (S fuel)) is = NUndef.
Proof. exists [ITyped (lit "! 0"); IRun]. intros [[] []] [] fuel; vm_compute; reflexivity. Qed.
Print Assumptions C92_recall_refuted.
