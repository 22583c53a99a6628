(** * Property C87: the example program complete.cpp, key by key and byte by byte *)

From Verif Require Import Base SplitSpec SplitProofs FromStringModel FromStringSpec FromStringProofs PrefixSpec HistoryModel HistorySpec StorageModel StorageSpec TerminalModel TerminalSpec CompletionSpec MenuModel SessionModel
  ProcessorModel TelnetModel ServerModel ServerSpec WireModel AcceptSpec WireSpec ExampleSpec ExampleProofs CompleteModel CompleteSpec CompleteProofs WholeModel WholeSpec WholeDeskProofs WholeProofs.
Open Scope nat_scope.
Open Scope list_scope.

(** C87: whatever keys are pressed at the computer and whatever bytes come from any number of telnet clients, in
    whatever order the handlers run, the program does what the specification of its users says, at each key: what
    is printed locally, the bytes sent to each client, who is there and what is saved; it is undefined, ends by an
    exception, or recurses for ever (more deeply than any [fuel]), only where the specification says so. *)
Theorem C87_refines : forall P rc pc net fuel tty, strict P = false -> (forall i tr, net i tr = true) -> deep <= fuel ->
  forall f xs sv0, Forall (readable P) (f_commands f) ->
  whole_start P rc pc tty f = VOk sv0 -> Forall (ok_move P) (w_moves P rc pc net fuel tty xs sv0) ->
  exists outs res, plays (whole_complex rc) pc tty (dawn (f_commands f)) (Arrives :: w_moves P rc pc net fuel tty xs sv0) outs res /\
  match res with
  | inl H => exists sv, w_run P rc pc net fuel tty xs sv0 = VOk sv /\ hall_seen H sv /\ audible 0 (sv_trace sv) = view 0 outs /\
      forall i, i <> 0 -> exists ps, sk_sent (w_wire P rc pc net fuel tty i xs sv0 sock_init) = flat_map piece_bytes ps /\
        texts ps = view i outs /\ replies_in ps = w_replied P rc pc net fuel tty i xs sv0
  | inr Undef => w_run P rc pc net fuel tty xs sv0 = VUB
  | inr Crash => exists e sv, w_run P rc pc net fuel tty xs sv0 = VExc e sv
  | inr Endless => w_run P rc pc net fuel tty xs sv0 = VFuel
  end.
Proof. exact whole_run. Qed.
Print Assumptions C87_refines.

(** The keys a user hits are those pressed, or those the bytes received stand for, in order; the replies to telnet commands
    likewise. *)
Theorem C87_keys : forall P rc pc net fuel tty f xs sv0, Forall (readable P) (f_commands f) ->
  whole_start P rc pc tty f = VOk sv0 ->
  (exists ks, w_pressed P rc pc net fuel tty xs sv0 = hits 0 (w_moves P rc pc net fuel tty xs sv0) ++ ks) /\
  forall i, i <> 0 -> exists ks more, snd (receive (w_delivered P rc pc net fuel tty i xs sv0) dev_init) =
    (hits i (w_moves P rc pc net fuel tty xs sv0) ++ ks, w_replied P rc pc net fuel tty i xs sv0 ++ more).
Proof. exact whole_keys. Qed.
Print Assumptions C87_keys.

(** The program starts. *)
Theorem C87_starts : forall P rc pc tty f, Forall (readable P) (f_commands f) ->
  exists sv0, whole_start P rc pc tty f = VOk sv0.
Proof. exact whole_starts. Qed.
Print Assumptions C87_starts.

(** The specification gives no choice. *)
Theorem C87_unique : forall rc pc tty saved ms l r l' r', plays (whole_complex rc) pc tty (dawn saved) ms l r -> plays (whole_complex rc) pc tty (dawn saved) ms l' r' ->
  l = l' /\ r = r'.
Proof. exact whole_unique. Qed.
Print Assumptions C87_unique.

(** A user at the computer and a telnet user. *)
Definition keys_of (s : string) : list winput := map (fun c => WKey (if Ascii.eqb c "010" then KRet else KAscii c)) (lit s).
Definition runs (n : nat) : list winput := repeat (WNet IRun) n.
Definition sends (i : nat) (s : str) : list winput := [WNet (IRead i (RData s))] ++ runs (1 + length s).
Definition line (s : string) : str := lit s ++ ["013"; "010"]%char.
Definition hour : list winput :=
  [WNet (IConnect true)] ++ runs 1 ++ map WKey [KAscii "h"; KAscii "e"; KAscii "x"; KBackspace]%char ++ keys_of "llo" ++ sends 1 (line "sub" ++ map ascii_of_nat [255; 253; 1]) ++ [WKey KRet]
  ++ runs 5 ++ sends 1 (line "hello") ++ keys_of "hello_everysession" ++ [WKey KRet] ++ runs 19 ++ sends 1 (line "exit") ++ [WNet (IRead 1 REof)] ++ runs 1 ++ [WKey KEof] ++ runs 1.
Definition here := mkPlatform true false.
Definition sure : nat -> list event -> bool := fun _ _ => true.
Definition hour_start := match whole_start here (fun _ => None) (fun _ => []) true (Some (lit "old" ++ nl)) with VOk sv => sv | _ => server_init cx_root 33 (StFile 1000 None) end.
Definition hour_run := w_run here (fun _ => None) (fun _ => []) sure 2 true hour hour_start.
Definition hour_moves := w_moves here (fun _ => None) (fun _ => []) sure 2 true hour hour_start.
(** Checks that all moves are of the keys the property is about. *)
Ltac all_ok := match goal with |- Forall (ok_move here) ?l => let m := eval vm_compute in l in replace l with m by (vm_compute; reflexivity) end;
  repeat (apply Forall_cons; [first [exact Logic.I|split; [discriminate|right; repeat constructor]]|]); apply Forall_nil.
Definition inked (s : string) : str := lit s ++ escape "0m".
Example C87_nonvacuous :
  (exists sv, hour_run = VOk sv /\ stopped (sv_trace sv) = true /\
    st_commands (sv_store sv) = [lit "old"; lit "sub"; lit "hello"; lit "exit"; lit "hello"; lit "hello_everysession"] /\
    audible 0 (sv_trace sv) =
      inked "cli" ++ lit "> " ++ inked "h" ++ inked "e" ++ inked "x" ++ ["008"; " "; "008"]%char ++ inked "l" ++ inked "l" ++ inked "o" ++ ["013"; "010"]%char ++ lit "Hello, world" ++ nl
      ++ inked "cli" ++ lit "> " ++ flat_map (fun c => c :: escape "0m") (lit "hello_everysession") ++ ["013"; "010"]%char ++ lit "Hello, everybody" ++ nl
      ++ inked "cli" ++ lit "> " ++ goodbye 0) /\
  sk_sent (w_wire here (fun _ => None) (fun _ => []) sure 2 true 1 hour hour_start sock_init) =
    hello ++ lit "cli> " ++ map ascii_of_nat [255; 253; 1] ++ crlf (lit "sub" ++ ["013"; "010"]%char ++ lit "submenu> hello" ++ ["013"; "010"]%char ++ lit "Hello, submenu world" ++ nl ++ lit "submenu> ") ++
    crlf (lit "Hello, everybody" ++ nl) ++ crlf (lit "exit" ++ ["013"; "010"]%char ++ lit "Terminating this session..." ++ nl) /\
  length hour_moves = 45 /\ hits 1 hour_moves = map KAscii (lit "sub") ++ [KRet] ++ map KAscii (lit "hello") ++ [KRet] ++ map KAscii (lit "exit") ++ [KRet] /\
  Forall (ok_move here) hour_moves /\
  Forall (readable here) (f_commands (Some (lit "old" ++ nl))).
Proof.
  split; [vm_compute; eexists; split; [reflexivity|]; repeat split; reflexivity|]. split; [vm_compute; reflexivity|]. split; [vm_compute; reflexivity|]. split; [vm_compute; reflexivity|]. split.
  - all_ok.
  - constructor; [right; repeat constructor|constructor].
Qed.

(** Up, Down and Tab: the user at the computer looks at remembered lines, rewrites one, and has names completed. *)
Definition second_hour : list winput :=
  map WKey [KUp; KBackspace; KUp; KUp; KDown; KDown] ++ keys_of "su" ++ [WKey tab_key] ++ keys_of "he" ++ [WKey tab_key] ++ [WKey KRet]
  ++ [WKey KUp; WKey KUp; WKey KClear; WKey KEof].
Definition second_run := w_run here (fun _ => None) (fun _ => []) sure 2 true (second_hour ++ runs 18)
  match whole_start here (fun _ => None) (fun _ => []) true (Some (lit "first" ++ nl ++ lit "second" ++ nl)) with VOk sv => sv | _ => server_init cx_root 33 (StFile 1000 None) end.
Example C87_pages_nonvacuous : exists sv, second_run = VOk sv /\
    audible 0 (sv_trace sv) =
      inked "cli" ++ lit "> " ++ inked "second" ++ ["008"; " "; "008"]%char ++ back 5 ++ inked "first" ++ back 5 ++ inked "first" ++ back 5 ++ inked "secon" ++ back 5 ++ escape "0m" ++ lit "     " ++ back 5
      ++ inked "s" ++ inked "u" ++ back 2 ++ inked "sub " ++ inked "h" ++ inked "e" ++ back 6 ++ inked "sub hello " ++ ["013"; "010"]%char ++ lit "Hello, submenu world" ++ nl
      ++ inked "cli" ++ lit "> " ++ inked "sub hello " ++ back 10 ++ inked "secon" ++ lit "     " ++ back 5 ++ escape "H" ++ escape "J" ++ inked "cli" ++ lit "> " ++ inked "secon" ++ goodbye 0 /\
    st_commands (sv_store sv) = [lit "first"; lit "second"; lit "sub hello "].
Proof. vm_compute. eexists. split; [reflexivity|]. split; reflexivity. Qed.

(** Refuted: what a telnet user sends after exit does nothing; if it comes with the exit, it is done: colours are switched on
    by a user who has left. *)
Theorem C87_late_refuted : exists xs sv0 sv, whole_start here (fun _ => None) (fun _ => []) true None = VOk sv0 /\
  Forall (ok_move here) (w_moves here (fun _ => None) (fun _ => []) sure 2 true xs sv0) /\
  w_run here (fun _ => None) (fun _ => []) sure 2 true xs sv0 = VOk sv /\
  (exists a b, sv_trace sv = a ++ [EvHook 1 KSesExit []] ++ b /\ cx_color a = false /\ cx_color (sv_trace sv) = true).
Proof.
  exists ([WNet (IConnect true)] ++ runs 1 ++ sends 1 (line "exit" ++ line "color")). do 2 eexists. split; [vm_compute; reflexivity|]. split; [all_ok|].
  split; [vm_compute; reflexivity|]. eexists (_ :: _ :: _ :: _ :: _ :: _ :: _ :: _ :: [_]), _. split; [vm_compute; reflexivity|]. split; vm_compute; reflexivity.
Qed.
Print Assumptions C87_late_refuted.
(** Refuted: a telnet client cannot end the program; it does, by sending the end of input after exit. *)
Theorem C87_crash_refuted : exists xs sv0, whole_start here (fun _ => None) (fun _ => []) true None = VOk sv0 /\
  w_pressed here (fun _ => None) (fun _ => []) sure 2 true xs sv0 = [] /\
  Forall (ok_move here) (w_moves here (fun _ => None) (fun _ => []) sure 2 true xs sv0) /\
  exists e sv, w_run here (fun _ => None) (fun _ => []) sure 2 true xs sv0 = VExc e sv.
Proof.
  exists ([WNet (IConnect true)] ++ runs 1 ++ sends 1 (line "exit" ++ ["004"%char])). eexists. split; [vm_compute; reflexivity|]. split; [vm_compute; reflexivity|]. split; [all_ok|].
  do 2 eexists. vm_compute. reflexivity.
Qed.
Print Assumptions C87_crash_refuted.
(** Refuted: a telnet client cannot make the program recurse for ever; it does, by rewriting a remembered line so that it recalls
    itself. *)
Definition up_bytes : str := ["027"; "["; "A"]%char.
Definition rewriting : str := line "history" ++ line "help" ++ up_bytes ++ up_bytes ++ repeat "008"%char 7 ++ lit "! 0" ++ up_bytes.
Definition third_hour : list winput := [WNet (IConnect true)] ++ runs 1 ++ sends 1 rewriting ++ [WNet (IRead 1 (RData (line "")))] ++ runs 1.
Theorem C87_endless_refuted : exists xs sv0, whole_start here (fun _ => None) (fun _ => []) true None = VOk sv0 /\
  forall fuel, deep <= fuel ->
  w_pressed here (fun _ => None) (fun _ => []) sure fuel true xs sv0 = [] /\
  w_run here (fun _ => None) (fun _ => []) sure fuel true xs sv0 = VFuel.
Proof.
  exists (third_hour ++ [WNet IRun]). eexists. split; [vm_compute; reflexivity|]. intros fuel Hd.
  match goal with |- context[w_run _ _ _ _ _ _ _ ?s] => set (sv0 := s) end.
  assert (H0 : whole_start here (fun _ => None) (fun _ => []) true None = VOk sv0) by (vm_compute; reflexivity).
  destruct fuel as [|[|fuel]]; [unfold deep in Hd; lia..|].
  split; [apply no_keys; vm_compute; intuition discriminate|].
  eapply (endless_run here (fun _ => None) (fun _ => []) sure _ true eq_refl ltac:(reflexivity) Hd None third_hour sv0 _ _ 1 _ (lit "0")).
  - constructor.
  - exact H0.
  - all_ok.
  - vm_compute. reflexivity.
  - vm_compute. reflexivity.
  - vm_compute. reflexivity.
  - vm_compute. reflexivity.
  - vm_compute. reflexivity.
  - vm_compute. reflexivity.
  - vm_compute. reflexivity.
  - vm_compute. reflexivity.
  - apply words_split. vm_compute. reflexivity.
  - split; [left|cbn; lia]. split; [discriminate|]. apply (digits_cons "0"%char 0 [] 0); [split; [lia|reflexivity]|constructor].
Qed.
Print Assumptions C87_endless_refuted.
