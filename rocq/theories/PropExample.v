(** * C81: properties of the example programs *)

From Verif Require Import Base SplitSpec SplitProofs FromStringModel FromStringSpec FromStringProofs HistoryModel StorageModel TerminalModel MenuModel SessionModel
  SessionSpec FileModel FileSpec ExampleModel ExampleSpec ExampleProofs.
Open Scope nat_scope.
Open Scope list_scope.

(** C81: for every text on its input the program of simplelocalsession.cpp and filesession.cpp
    returns, having written what the specification of its menus says. *)
Theorem C81_session : forall P tty n fuel text ls rest, strict P = false -> readable P text ->
  lines_of text ls rest -> length ls < n -> ~ recall_first ls ->
  exists f o, ex_main P tty n (S fuel) text = LOk f /\ session tty start ls o /\ shown (w_trace (fs_world f)) = o.
Proof. intros P tty n fuel text ls rest H. exact (main_session P H tty n fuel text ls rest). Qed.
Print Assumptions C81_session.

(** The specification gives no choice, and every text has lines. *)
Theorem C81_unique : forall tty s ls o o', session tty s ls o -> session tty s ls o' -> o = o'.
Proof. exact session_unique. Qed.
Print Assumptions C81_unique.
Theorem C81_text : forall P tty text, strict P = false -> readable P text ->
  exists ls rest, lines_of text ls rest /\
    (~ recall_first ls -> exists o, session tty start ls o /\
      forall n fuel, length ls < n -> exists f, ex_main P tty n (S fuel) text = LOk f /\ shown (w_trace (fs_world f)) = o).
Proof. exact text_session. Qed.
Print Assumptions C81_text.

Definition input : str := lit "hello" ++ nl ++ lit "answer -7" ++ nl ++ nl ++ lit "sub subsub" ++ nl ++ lit ".. hello" ++ nl
  ++ lit "history" ++ nl ++ lit "! 3" ++ nl ++ lit "bye" ++ nl ++ lit ".. .. color" ++ nl ++ lit "help" ++ nl ++ lit "cli exit" ++ nl ++ lit "exit" ++ nl ++ lit "hello" ++ nl.
Definition printed (r : lres) : option str := match r with LOk f => Some (shown (w_trace (fs_world f))) | _ => None end.
Definition green (p : str) : str := esc "32" ++ esc "1" ++ p ++ esc "0" ++ lit "> ".
(** The output of the model for that input; it meets the hypotheses of the theorems. *)
Example C81_nonvacuous :
  printed (ex_main (mkPlatform true false) false 20 1 input) = Some (
    lit "cli> Hello, world" ++ nl ++ lit "cli> The answer is: -7" ++ nl ++ lit "cli> cli> subsub> Hello, submenu world" ++ nl
    ++ lit "subsub> " ++ nl ++ lit "4" ++ tab ++ lit "history" ++ nl ++ nl ++ lit "subsub> Index not found in history" ++ nl
    ++ lit "subsub> wrong command: bye" ++ nl ++ lit "subsub> Colors ON" ++ nl ++ green (lit "subsub") ++ global_help ++ place_help SubSub
    ++ green (lit "subsub") ++ lit "wrong command: cli exit" ++ nl ++ green (lit "subsub") ++ goodbye) /\
  plain input /\ exists ls, lines_of input ls [] /\ length ls = 13 /\ ~ recall_first ls.
Proof.
  split; [vm_compute; reflexivity|]. split; [vm_compute; repeat constructor|].
  exists [lit "hello"; lit "answer -7"; []; lit "sub subsub"; lit ".. hello"; lit "history"; lit "! 3"; lit "bye"; lit ".. .. color"; lit "help"; lit "cli exit"; lit "exit"; lit "hello"].
  split; [|split; [reflexivity|]].
  - split; [vm_compute; reflexivity|]. split; [|vm_compute; intuition discriminate].
    repeat (apply Forall_cons; [vm_compute; intuition discriminate|]). apply Forall_nil.
  - intros [(ws & Hw & (s & v & -> & _))|(Hw & _)]; apply words_split in Hw; vm_compute in Hw; discriminate.
Qed.

(** Refuted: the recall of a command is answered in every session of one line. *)
Theorem C81_recall_refuted : exists text, plain text /\ forall P tty fuel, ex_main P tty 5 (S fuel) text = LUB.
Proof. exists (lit "! 0" ++ nl). split; [repeat constructor|]. intros P tty fuel. destruct P as [[] []]; vm_compute; reflexivity. Qed.
Print Assumptions C81_recall_refuted.
(** Refuted: numbers are read without undefined behaviour where signed overflow is undefined. *)
Theorem C81_answer_refuted : exists text, plain text /\ forall tty c fuel, ex_main (mkPlatform c true) tty 5 (S fuel) text = LUB.
Proof. exists (lit "answer -2147483648" ++ nl). split; [repeat constructor|]. intros tty [] fuel; vm_compute; reflexivity. Qed.
Print Assumptions C81_answer_refuted.
