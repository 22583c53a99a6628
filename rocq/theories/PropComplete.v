(** * Property C86: the example program complete.cpp *)

From Verif Require Import Base SplitSpec SplitProofs FromStringModel FromStringSpec FromStringProofs HistoryModel HistorySpec StorageModel StorageSpec MenuModel SessionModel
  ExampleSpec ExampleProofs CompleteModel CompleteSpec CompleteProofs.
Open Scope nat_scope.
Open Scope list_scope.

(** C86: whatever the users of any number of sessions do, in any order, each gets what the specification
    says, and the program ends as the specification says; it is undefined only where that is, and it recurses for
    ever (more deeply than any [fuel]) only where recalls never end. *)
Theorem C86_refines : forall P rc pc fuel f xs, strict P = false -> deep <= fuel ->
  Forall (readable P) (f_commands f) ->
  Forall (fun x => match x with Types _ line => readable P line /\ one_line line | _ => True end) xs ->
  exists l res, goes_on (whole_complex rc) pc (morning (f_commands f)) xs l res /\
    delivered xs (fst (app_run P rc pc fuel (map act_of xs) (cx_start f))) l /\
    match res with
    | inl h => exists a, snd (app_run P rc pc fuel (map act_of xs) (cx_start f)) = AOk a /\ seen h a
    | inr e => snd (app_run P rc pc fuel (map act_of xs) (cx_start f)) = match e with Endless => AFuel | _ => AUB end
    end.
Proof. exact complete_run. Qed.
Print Assumptions C86_refines.

(** The specification gives no choice. *)
Theorem C86_unique : forall rc pc h xs l r l' r', goes_on (whole_complex rc) pc h xs l r -> goes_on (whole_complex rc) pc h xs l' r' -> l = l' /\ r = r'.
Proof. exact complete_unique. Qed.
Print Assumptions C86_unique.

(** At any time one of the commands color and nocolor can be used, the one that changes something, until both
    are removed. *)
Theorem C86_toggle : forall P rc pc fuel f xs a, strict P = false -> deep <= fuel ->
  Forall (readable P) (f_commands f) ->
  Forall (fun x => match x with Types _ line => readable P line /\ one_line line | _ => True end) xs ->
  snd (app_run P rc pc fuel (map act_of xs) (cx_start f)) = AOk a ->
  colour_kids a = [] \/ colour_kids a = [if cx_color (a_trace a) then lit "nocolor" else lit "color"].
Proof. exact complete_toggle. Qed.
Print Assumptions C86_toggle.

(** Two users, then a third one who finds the lines of the second one, and the end. *)
Definition day : list happening := [
  Comes; Comes; Types 0 (lit "hello"); Types 1 (lit "color"); Types 0 (lit "nocolor"); Types 0 (lit "sub"); Types 1 (lit "add 2 -3");
  Types 1 (lit "hello_everysession"); Types 0 (lit "! 0"); Types 1 (lit "error"); Types 1 (lit "sort b a c a"); Types 1 (lit "bar ' 7'"); Types 1 (lit "exit");
  Comes; Types 2 (lit "history"); Types 2 (lit "! 9"); Types 2 (lit "! 1"); Types 0 (lit ".. removecmds"); Types 0 (lit "exit"); Types 2 (lit "hello") ].
Definition said_to (j : nat) (r : list (list event) * ares) : list str := map (for_user j) (fst r).
Definition day_run := app_run (mkPlatform true false) (fun _ => None) (fun _ => []) 2 (map act_of day) (cx_start (Some (lit "old" ++ nl))).
Example C86_nonvacuous :
  concat (said_to 0 day_run) = lit "Hello, world" ++ nl ++ lit "Colors OFF" ++ nl ++ lit "Unknown command or incorrect parameters: old." ++ nl
    ++ lit "Closing App..." ++ nl ++ fish /\
  concat (said_to 1 day_run) = lit "Colors ON" ++ nl ++ lit "2 + -3 = -1" ++ nl
    ++ caught (lit "Error in cmd") (lit "error") ++ lit "sorted list: a a b c " ++ nl ++ lit "You entered bar: 7" ++ nl
    ++ lit "Terminating this session..." ++ nl ++ fish /\
  concat (said_to 2 day_run) = listing (number 0 [lit "old"; lit "color"; lit "add 2 -3"; lit "hello_everysession"; lit "error"; lit "sort b a c a"; lit "bar ' 7'"; lit "exit"; lit "history"])
    ++ caught (lit "Index not found in history") (lit "! 9") ++ lit "Colors ON" ++ nl /\
  (exists a, snd day_run = AOk a /\ a_stopped a = true) /\
  Forall plain [lit "old"] /\
  Forall (fun x => match x with Types _ line => plain line /\ one_line line | _ => True end) day.
Proof.
  split; [vm_compute; reflexivity|]. split; [vm_compute; reflexivity|]. split; [vm_compute; reflexivity|]. split.
  - vm_compute. eexists. split; reflexivity.
  - split.
    + repeat constructor.
    + unfold day. repeat (apply Forall_cons; [first [exact Logic.I|split; [repeat constructor|vm_compute; intuition discriminate]]|]). apply Forall_nil.
Qed.

(** Refuted: sums that are no [int] are an error; they are undefined behaviour. *)
Theorem C86_sum_refuted : exists xs, Forall (fun x => match x with Types _ line => plain line /\ one_line line | _ => True end) xs /\
  forall P rc pc fuel, strict P = false -> snd (app_run P rc pc (S (S fuel)) (map act_of xs) (cx_start None)) = AUB.
Proof.
  exists [Comes; Types 0 (lit "add 2147483647 1")]. split.
  - repeat (apply Forall_cons; [first [exact Logic.I|split; [repeat constructor|vm_compute; intuition discriminate]]|]). apply Forall_nil.
  - intros [[] []] rc pc fuel H; try discriminate; vm_compute; reflexivity.
Qed.
Print Assumptions C86_sum_refuted.
(** Refuted: the lines of a telnet user who is there when the local user exits are saved. *)
Theorem C86_saved_refuted : exists xs, Forall (fun x => match x with Types _ line => plain line /\ one_line line | _ => True end) xs /\
  forall P rc pc fuel, strict P = false -> exists a, snd (app_run P rc pc (S (S fuel)) (map act_of xs) (cx_start None)) = AOk a /\
    In (ALine 1 (lit "hello")) (map act_of xs) /\ st_commands (a_store a) = [lit "exit"].
Proof.
  exists [Comes; Comes; Types 1 (lit "hello"); Types 0 (lit "exit"); Types 1 (lit "exit")]. split.
  - repeat (apply Forall_cons; [first [exact Logic.I|split; [repeat constructor|vm_compute; intuition discriminate]]|]). apply Forall_nil.
  - intros [[] []] rc pc fuel H; try discriminate; (eexists; split; [vm_compute; reflexivity|]; split; [right; right; left; reflexivity|vm_compute; reflexivity]).
Qed.
Print Assumptions C86_saved_refuted.
(** A saved line that recalls another one *)
Example C86_recalls_nonvacuous :
  let f := Some (lit "hello" ++ nl ++ lit "! 0" ++ nl ++ lit "help" ++ nl) in
  let r := app_run (mkPlatform true false) (fun _ => None) (fun _ => []) 3 (map act_of [Comes; Types 0 (lit "! 1")]) (cx_start f) in
  Forall plain (f_commands f) /\ said_to 0 r = [[]; lit "Hello, world" ++ nl].
Proof. split; [repeat constructor|vm_compute; reflexivity]. Qed.
(** Refuted: every line is answered.  A saved line can recall itself. *)
Theorem C86_endless_refuted : exists f xs, Forall plain (f_commands f) /\ Forall (fun x => match x with Types _ line => plain line /\ one_line line | _ => True end) xs /\
  forall P rc pc fuel, strict P = false -> deep <= fuel -> snd (app_run P rc pc fuel (map act_of xs) (cx_start f)) = AFuel.
Proof. exact complete_endless. Qed.
Print Assumptions C86_endless_refuted.
