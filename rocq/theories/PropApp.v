(** * C88: the example asyncsession.cpp *)

From Verif Require Import Base FromStringModel FromStringSpec FromStringProofs HistoryModel StorageModel TerminalModel MenuModel SessionModel FileSpec
  ExampleModel ExampleSpec ExampleProofs AsyncModel AppModel AppSpec AppProofs.
Open Scope nat_scope.
Open Scope list_scope.

(** C88: however the input arrives, the program writes what the specification says for the first
    lines it read; all of them when no handler is ready; it runs until the line exit and returns 0 then. *)
Theorem C88_program : forall P fuel tty is ls rest, strict P = false -> let ds := bytes_read P (S fuel) tty is (ap_main P (S fuel) tty []) in
  readable P ds -> lines_of ds ls rest -> ~ recall_first ls ->
  exists fed waiting o e, ls = fed ++ waiting /\ talk tty start fed o e /\ written (ap_main P (S fuel) tty is) = Some o /\
    match ap_main P (S fuel) tty is with
    | PRuns s => e = false /\ (settled (PRuns s) -> waiting = [])
    | PReturned c _ => e = true /\ c = 0%Z
    | _ => False
    end.
Proof. intros P fuel tty is ls rest HP. exact (app_program P HP fuel tty is ls rest). Qed.
Print Assumptions C88_program.
(** The specification gives no choice. *)
Theorem C88_unique : forall tty s ls o e o' e', talk tty s ls o e -> talk tty s ls o' e' -> o = o' /\ e = e'.
Proof. intros tty s ls o e o' e' H. exact (talk_unique tty s ls o e H o' e'). Qed.
Print Assumptions C88_unique.
(** When the line exit was read, the program returns as soon as its handlers have run. *)
Theorem C88_exits : forall P fuel tty is ls rest line, strict P = false -> let ds := bytes_read P (S fuel) tty is (ap_main P (S fuel) tty []) in
  readable P ds -> lines_of ds ls rest -> ~ recall_first ls -> In line ls -> words line [lit "exit"] ->
  exists n s, ap_main P (S fuel) tty (is ++ repeat NRun n) = PReturned 0 s.
Proof. intros P fuel tty is ls rest line HP. exact (app_exits P HP fuel tty is ls rest line). Qed.
Print Assumptions C88_exits.
(** How the bytes are cut in pieces does not matter. *)
Theorem C88_same : forall P fuel tty is is' ls rest, strict P = false -> let ds := bytes_read P (S fuel) tty is (ap_main P (S fuel) tty []) in
  readable P ds -> lines_of ds ls rest -> ~ recall_first ls -> bytes_read P (S fuel) tty is' (ap_main P (S fuel) tty []) = ds ->
  settled (ap_main P (S fuel) tty is) -> settled (ap_main P (S fuel) tty is') ->
  written (ap_main P (S fuel) tty is) = written (ap_main P (S fuel) tty is').
Proof. intros P fuel tty is is' ls rest HP. exact (app_same P HP fuel tty is is' ls rest). Qed.
Print Assumptions C88_same.

Definition pieces : list apinput :=
  [NBytes (lit "answ"); NBytes (lit "er 42" ++ nl ++ lit "sub" ++ nl ++ lit "col"); NRun; NRun; NBytes (lit "or" ++ nl ++ lit "history" ++ nl ++ lit "exit" ++ nl ++ lit "demo" ++ nl); NRun; NRun; NRun; NRun].
Example C88_nonvacuous : let P := mkPlatform true false in let ds := bytes_read P 1 false pieces (ap_main P 1 false []) in
  ds = lit "answer 42" ++ nl ++ lit "sub" ++ nl ++ lit "color" ++ nl ++ lit "history" ++ nl ++ lit "exit" ++ nl ++ lit "demo" ++ nl /\
  readable P ds /\ (exists ls, lines_of ds ls [] /\ ~ recall_first ls /\ In (lit "exit") ls /\ words (lit "exit") [lit "exit"]) /\
  (exists s, ap_main P 1 false pieces = PReturned 0 s /\
    written (PReturned 0 s) = Some (lit "cli> The answer is: 42" ++ nl ++ lit "cli> sub> wrong command: color" ++ nl ++ lit "sub> " ++ nl ++ lit "3" ++ tab ++ lit "history" ++ nl ++ nl
      ++ lit "sub> Closing App..." ++ nl ++ lit "Goodbye and thanks for all the fish." ++ nl)) /\
  exists s, ap_main P 1 false (firstn 4 pieces) = PRuns s /\ settled (PRuns s).
Proof.
  cbn zeta. split; [vm_compute; reflexivity|]. split; [right; vm_compute; repeat constructor|]. split; [|split].
  - exists [lit "answer 42"; lit "sub"; lit "color"; lit "history"; lit "exit"; lit "demo"]. split; [|split; [|split; [vm_compute; tauto|apply words_split; vm_compute; reflexivity]]].
    + split; [vm_compute; reflexivity|]. split; [|vm_compute; intuition discriminate].
      repeat (apply Forall_cons; [vm_compute; intuition discriminate|]). apply Forall_nil.
    + intros [(ws & Hw & (s & v & -> & _))|(Hw & _)]; apply words_split in Hw; vm_compute in Hw; discriminate.
  - eexists. split; [vm_compute; reflexivity|]. vm_compute. reflexivity.
  - eexists. split; [vm_compute; reflexivity|]. exact Logic.I.
Qed.

(** When its input ends before the line exit the program waits for ever, without a word. *)
Theorem C88_hangs : forall P fuel tty is s is', ap_main P fuel tty is = PRuns s -> as_pend s = PdWait ->
  exists s', ap_main P fuel tty (is ++ NEnd :: NRun :: is') = PRuns s' /\ written (PRuns s') = written (PRuns s).
Proof. exact app_hangs. Qed.
Print Assumptions C88_hangs.
(** Refuted: the program ends when its input ends. *)
Theorem C88_end_refuted : exists is, forall P fuel tty is', exists s, ap_main P (S fuel) tty (is ++ is') = PRuns s /\
  written (PRuns s) = Some (shown_prompt tty start ++ lit "Hello, world" ++ nl ++ shown_prompt tty start).
Proof.
  exists ([NBytes (lit "hello" ++ nl ++ lit "exit"); NRun] ++ [NEnd; NRun]). intros P fuel tty is'.
  assert (H : exists s, ap_main P (S fuel) tty [NBytes (lit "hello" ++ nl ++ lit "exit"); NRun] = PRuns s /\ as_pend s = PdWait /\
    written (PRuns s) = Some (shown_prompt tty start ++ lit "Hello, world" ++ nl ++ shown_prompt tty start)).
  { destruct tty; eexists; (split; [vm_compute; reflexivity|]); split; vm_compute; reflexivity. }
  destruct H as (s & H & Hp & Hw). destruct (app_hangs P (S fuel) tty _ s is' H Hp) as (s' & Hs & Hw'). exists s'.
  split; [rewrite <- app_assoc; exact Hs|]. rewrite Hw'. exact Hw.
Qed.
Print Assumptions C88_end_refuted.
(** Refuted: it can be used freely: a recall as the first line is undefined behaviour. *)
Theorem C88_recall_refuted : exists is, forall P fuel tty, ap_main P (S fuel) tty is = PUndef.
Proof. exists [NBytes (lit "! 0" ++ nl); NRun]. intros P fuel tty. destruct P as [[] []], tty; vm_compute; reflexivity. Qed.
Print Assumptions C88_recall_refuted.
