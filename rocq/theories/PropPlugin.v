(** * C91: the example program pluginmanager.cpp *)

From Verif Require Import Base SplitSpec FromStringModel FromStringSpec FromStringProofs HistoryModel HistorySpec StorageModel TerminalModel MenuModel SessionModel
  ExampleModel ExampleSpec ExampleProofs CompleteModel CompleteSpec CompleteProofs PluginModel PluginSpec PluginProofs.
Open Scope nat_scope.
Open Scope list_scope.

(** How the program ended, as the specification says. *)
Definition ended (f : finish) (r : pres) : Prop :=
  match f with
  | Stays _ => exists w codes, r = PGo w codes
  | Left => r = PDone
  | Undef => r = PUB
  end.
Definition prompt_at_first (tty : bool) : str := lit "cli" ++ (if tty then esc "0" else []) ++ lit "> ".

(** C91: for all lines the program prints the prompt and then what the specification says, line for line, and ends as
    it says. *)
Theorem C91_prints : forall P ar tty fuel ls, strict P = false -> Forall (readable P) ls ->
  exists l f r, talk (pm_plugins ar) tty false opened ls l f /\ pm_main P ar tty (S (S fuel)) ls = (prompt_at_first tty :: l, r) /\ ended f r.
Proof. exact program_prints. Qed.
Print Assumptions C91_prints.
(** The specification gives no choice. *)
Theorem C91_unique : forall registered tty ls l f l' f', talk registered tty false opened ls l f -> talk registered tty false opened ls l' f' -> l = l' /\ f = f'.
Proof. exact program_unique. Qed.
Print Assumptions C91_unique.
(** Nothing undefined happens without a recall, an unload or a calculation. *)
Theorem C91_safe : forall P ar tty fuel ls, strict P = false -> Forall (readable P) ls ->
  (forall line ws, In line ls -> words line ws -> ~ is_recall ws /\ ~ In (lit "unload") ws /\ ~ In (lit "add") ws /\ ~ In (lit "sub") ws) ->
  snd (pm_main P ar tty (S (S fuel)) ls) <> PUB.
Proof. exact program_safe. Qed.
Print Assumptions C91_safe.

Definition visit : list str := [lit "list"; lit "load arithmetic"; lit "load arithmetic"; lit "load strings"; lit "arithmetic"; lit "sub 3 5";
  lit ".. strings sort b a"; lit "strings"; lit "cli strings"; lit "cli unload arithmetic"; lit "upper abC"; lit "! 3"; lit ".. loaded"; lit ".. arithmetic add 1 2";
  lit ".. color"; lit ".."; lit "history"; lit "exit"; lit "list"].
Definition green (p : str) : str := esc "32" ++ esc "1" ++ p ++ esc "0" ++ lit "> ".
(** The output of the model for these lines; they meet the hypotheses of [C91_prints]. *)
Example C91_nonvacuous :
  pm_main (mkPlatform true false) true false 2 visit = ([
    lit "cli> ";
    lit " - arithmetic" ++ nl ++ lit " - strings" ++ nl ++ lit "cli> ";
    lit "Plugin arithmetic loaded" ++ nl ++ lit "cli> ";
    lit "Plugin arithmetic loaded" ++ nl ++ lit "cli> ";
    lit "Plugin strings loaded" ++ nl ++ lit "cli> ";
    lit "arithmetic> ";
    lit "3 - 5 = -2" ++ nl ++ lit "arithmetic> ";
    lit "sorted list: a b " ++ nl ++ lit "arithmetic> ";
    lit "wrong command: strings" ++ nl ++ lit "arithmetic> ";
    lit "strings> ";
    lit "Plugin arithmetic unloaded" ++ nl ++ lit "Plugin arithmetic unloaded" ++ nl ++ lit "strings> ";
    lit "ABC" ++ nl ++ lit "strings> ";
    lit "wrong command: arithmetic" ++ nl ++ lit "strings> ";
    lit " - strings" ++ nl ++ lit "strings> ";
    lit "wrong command: .. arithmetic add 1 2" ++ nl ++ lit "strings> ";
    lit "Colors ON" ++ nl ++ green (lit "strings");
    green (lit "cli");
    listing (number 0 [lit "list"; lit "load arithmetic"; lit "load strings"; lit "arithmetic"; lit "sub 3 5";
      lit ".. strings sort b a"; lit "strings"; lit "cli strings"; lit "cli unload arithmetic"; lit "upper abC"; lit "arithmetic"; lit ".. loaded"; lit ".. arithmetic add 1 2";
      lit ".. color"; lit ".."; lit "history"]) ++ green (lit "cli");
    lit "Closing App..." ++ nl ++ lit "Goodbye and thanks for all the fish." ++ nl ++ lit "Plugin strings unloaded" ++ nl], PDone) /\
  Forall (readable (mkPlatform true false)) visit.
Proof. split; [vm_compute; reflexivity|]. repeat (apply Forall_cons; [right; repeat constructor|]). apply Forall_nil. Qed.
(** Lines that meet the hypothesis of [C91_safe]. *)
Example C91_safe_nonvacuous : forall line ws, In line [lit "load strings"; lit "strings"; lit "upper add1"] -> words line ws ->
  ~ is_recall ws /\ ~ In (lit "unload") ws /\ ~ In (lit "add") ws /\ ~ In (lit "sub") ws.
Proof.
  intros line ws Hin Hw. apply words_split in Hw.
  assert (Hc : ws = [lit "load"; lit "strings"] \/ ws = [lit "strings"] \/ ws = [lit "upper"; lit "add1"]).
  { destruct Hin as [<-|[<-|[<-|[]]]]; vm_compute in Hw; [left|right; left|right; right]; vm_compute; congruence. }
  destruct Hc as [->|[->| ->]]; (split; [intros (? & ? & ? & _); discriminate|vm_compute; intuition discriminate]).
Qed.

(** Refuted: the program can be used freely.  Unloading the plugin in whose menu the session stands is undefined. *)
Theorem C91_unload_refuted : exists ls, forall P ar tty fuel, Forall plain ls /\ snd (pm_main P ar tty (S (S fuel)) ls) = PUB.
Proof.
  exists [lit "load arithmetic"; lit "arithmetic"; lit "cli unload arithmetic"]. intros P ar tty fuel.
  split; [repeat constructor|destruct ar; vm_compute; reflexivity].
Qed.
Print Assumptions C91_unload_refuted.
(** So are sums that are too large. *)
Theorem C91_overflow_refuted : exists ls, forall ar tty fuel, Forall plain ls /\ forall c, snd (pm_main (mkPlatform c false) ar tty (S (S fuel)) ls) = PUB.
Proof.
  exists [lit "load arithmetic"; lit "arithmetic add 2147483647 1"]. intros ar tty fuel.
  split; [repeat constructor|]. intros []; destruct ar; vm_compute; reflexivity.
Qed.
Print Assumptions C91_overflow_refuted.
