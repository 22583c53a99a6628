(** * C112: the line editor when memory runs out *)

From Verif Require Import Base TerminalModel TerminalSpec TerminalProofs AllocTermModel AllocTermSpec AllocTermProofs.
Open Scope nat_scope.
Open Scope list_scope.

(** C112: whatever allocations fail, the line and the cursor are those of an ideal editor
    in which the operations that threw did not happen, but for Backspace, which did, and a
    Return that failed to hand over the line, which is empty then.  Nothing is read or
    written out of range. *)
Theorem C112_line : forall ltr tty os, exists out t',
  run_ops_m ltr tty os term_init = Some (out, fst (ed_run_m os (mkEd [] [])), t') /\ holds t' (snd (ed_run_m os (mkEd [] []))).
Proof.
  intros ltr tty os. destruct (run_m ltr tty os term_init (mkEd [] []) init_holds) as (out & t' & E & H & _).
  exists out, t'. split; [exact E|exact H].
Qed.
Print Assumptions C112_line.

(** From any state. *)
Theorem C112_line_step : forall ltr tty os t e, holds t e -> exists out t',
  run_ops_m ltr tty os t = Some (out, fst (ed_run_m os e), t') /\ holds t' (snd (ed_run_m os e)).
Proof.
  intros ltr tty os t e H. destruct (run_m ltr tty os t e H) as (out & t' & E & H' & _). exists out, t'. split; [exact E|exact H'].
Qed.
Print Assumptions C112_line_step.

(** With memory, nothing differs. *)
Theorem C112_enough : forall ltr tty os t, Forall plenty os ->
  run_ops_m ltr tty os t =
  match run_ops tty (map (fun o => (op_color o, op_ed o)) os) t with
  | Some (out, sys, t') => Some (out, map Some sys, t')
  | None => None
  end.
Proof. intros ltr tty os t P. exact (run_plenty ltr tty os P t). Qed.
Print Assumptions C112_enough.

(** Whatever failed before, after a Return that succeeds the screen shows what is typed,
    as long as there is memory: an escape sequence is written whole or not at all. *)
Theorem C112_fresh : forall ltr tty os o os' t e sc, holds t e -> printable_ed e -> Forall typed os ->
  op_ed o = EKey KRet -> op_ok o 0 = true -> op_ok o 1 = true ->
  Forall plenty os' -> Forall (fun o => printable_op (op_ed o)) os' -> sc_esc sc = Ground -> sc_below sc = [] ->
  exists out rs t', run_ops_m ltr tty (os ++ o :: os') t = Some (out, rs, t') /\
    shows [] (snd (ed_run (map op_ed os') (mkEd [] []))) (display out sc).
Proof. exact fresh. Qed.
Print Assumptions C112_fresh.

(** An operation that fails has written a beginning of what it writes. *)
Theorem C112_written : forall ltr tty o t e out t1, holds t e -> run_op_m ltr tty o t = TThrew out t1 ->
  exists rest sy t2, run_op tty (op_color o, op_ed o) t = Some (out ++ rest, sy, t2).
Proof. exact threw_prefix. Qed.
Print Assumptions C112_written.

Definition lots : nat -> bool := fun _ => true.
Definition short (n : nat) : nat -> bool := fun m => negb (Nat.eqb m n).
Definition at_prompt : screen := mkScreen [] (lit "> ") [] 2 Ground.

(** Until then it may show what is not there: a character is written before it is
    inserted. *)
Theorem C112_shown_refuted : exists o out t, typed o /\ run_op_m true true o term_init = TThrew out t /\
  tm_line t = [] /\ tm_pos t = 0 /\ sc_row (display out at_prompt) = lit "> a" /\ sc_col (display out at_prompt) = 3.
Proof.
  exists (mkOpm true (EKey (KAscii "a")) (short 2)). eexists _, _. split; [right; unfold printable; cbn; lia|].
  split; [reflexivity|]. repeat split.
Qed.
Print Assumptions C112_shown_refuted.

(** A line may be lost: Return copies it, clears it, and copies it again. *)
Theorem C112_lost_refuted : exists os out t, Forall typed os /\
  run_ops_m true true os term_init = Some (out, [Some SyNothing; None; Some (SyCommand [])], t) /\ tm_line t = [].
Proof.
  exists [mkOpm false (EKey (KAscii "a")) lots; mkOpm false (EKey KRet) (short 1); mkOpm false (EKey KRet) lots].
  eexists _, _. split.
  { repeat apply Forall_cons; try apply Forall_nil; cbn; try exact Logic.I. right. unfold printable. cbn. lia. }
  split; reflexivity.
Qed.
Print Assumptions C112_lost_refuted.

(** Or be run though the line on the screen is empty. *)
Theorem C112_hidden_refuted : exists os o out rs t, Forall typed os /\
  run_ops_m true true os term_init = Some (out, rs, t) /\ shows [] (mkEd [] []) (display out at_prompt) /\
  op_ed o = EKey KRet /\ run_op_m true true o t = TDone ["013"; "010"]%char (SyCommand (lit "a")) (mkTerm [] 0 (tm_force t)).
Proof.
  exists [mkOpm false (EKey (KAscii "a")) lots; mkOpm false (EKey KRet) (short 0)], (mkOpm false (EKey KRet) lots).
  eexists _, _, _. split.
  { repeat apply Forall_cons; try apply Forall_nil; cbn; try exact Logic.I. right. unfold printable. cbn. lia. }
  split; [reflexivity|]. split; [|split; reflexivity]. split; [exists 0; reflexivity|]. repeat split.
Qed.
Print Assumptions C112_hidden_refuted.

Definition demo_os : list op_m :=
  [mkOpm true (EKey (KAscii "a")) lots; mkOpm true (EKey (KAscii "x")) (short 0); mkOpm false (EKey (KAscii "b")) lots;
   mkOpm false (EKey KHome) (short 0); mkOpm true (EKey (KAscii "c")) lots; mkOpm true (EKey KBackspace) (short 1);
   mkOpm true (ESet (lit "q")) (short 2); mkOpm true (EKey KLeft) (short 0)].
Example C112_nonvacuous :
  ed_run_m demo_os (mkEd [] []) =
    ([Some SyNothing; None; Some SyNothing; None; Some SyNothing; None; None; Some SyNothing], mkEd (lit "a") (lit "b")) /\
  Forall typed demo_os.
Proof.
  split; [reflexivity|]. unfold demo_os.
  repeat apply Forall_cons; try apply Forall_nil; cbn; try exact Logic.I; try (right; unfold printable; cbn; lia).
  split; [discriminate|reflexivity].
Qed.
Example C112_line_step_nonvacuous : holds (mkTerm (lit "ab") 1 false) (mkEd (lit "a") (lit "b")) /\
  snd (ed_run_m [mkOpm false (EKey KBackspace) (short 0)] (mkEd (lit "a") (lit "b"))) = mkEd [] (lit "b") /\
  snd (ed_run_m [mkOpm false (EKey KCanc) (short 1)] (mkEd (lit "a") (lit "b"))) = mkEd (lit "a") (lit "b").
Proof. split; [split; reflexivity|]. split; reflexivity. Qed.
Example C112_enough_nonvacuous : exists os, Forall plenty os /\ ed_run_m os (mkEd [] []) = ([Some SyNothing; Some (SyCommand (lit "a"))], mkEd [] []).
Proof.
  exists [mkOpm true (EKey (KAscii "a")) lots; mkOpm true (EKey KRet) lots]. split; [|reflexivity].
  repeat constructor.
Qed.
Example C112_fresh_nonvacuous : exists o os', holds term_init (mkEd [] []) /\ printable_ed (mkEd [] []) /\ Forall typed demo_os /\
  op_ed o = EKey KRet /\ op_ok o 0 = true /\ op_ok o 1 = true /\ Forall plenty os' /\
  Forall (fun o => printable_op (op_ed o)) os' /\ sc_esc at_prompt = Ground /\ sc_below at_prompt = [] /\
  ed_text (snd (ed_run (map op_ed os') (mkEd [] []))) = lit "z".
Proof.
  exists (mkOpm true (EKey KRet) lots), [mkOpm true (EKey (KAscii "z")) lots].
  split; [split; reflexivity|]. split; [split; constructor|]. split; [exact (proj2 C112_nonvacuous)|].
  split; [reflexivity|]. split; [reflexivity|]. split; [reflexivity|]. split; [repeat constructor|].
  split; [|split; [reflexivity|]; split; reflexivity].
  apply Forall_cons; [right; unfold printable; cbn; lia|apply Forall_nil].
Qed.
Example C112_written_nonvacuous : holds (mkTerm (lit "ab") 1 false) (mkEd (lit "a") (lit "b")) /\
  run_op_m true false (mkOpm false (EKey (KAscii "c")) (short 1)) (mkTerm (lit "ab") 1 false) =
    TThrew (lit "cb") (mkTerm (lit "ab") 1 false).
Proof. split; [split; reflexivity|reflexivity]. Qed.
