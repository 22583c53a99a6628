(** * C38: properties of file sessions *)

From Verif Require Import Base FromStringModel HistoryModel StorageModel TerminalModel MenuModel SessionModel
  SessionSpec SessionProofs FileModel FileSpec FileProofs Demo.
Open Scope nat_scope.
Open Scope list_scope.

(** C38: a file session over a text does what the script of its newline-terminated
    lines says; [Start] needs no more rounds than there are lines, plus one. *)
Theorem C38_script : forall E fuel tty color i sid root nxt st tr s ls rest n,
  open_file i true sid root nxt st tr = Some s -> lines_of (in_rest i) ls rest -> length ls < n ->
  same_end (fs_start E true fuel tty color n s)
    (run_script (file_env E) fuel tty color ls false (open_session sid 1 root nxt st tr)).
Proof.
  intros E fuel tty color i sid root nxt st tr s ls rest n Ho Hl Hn. unfold open_file, in_good in Ho. destruct i as [text e f].
  destruct e, f; try discriminate. injection Ho as <-. exact (proj1 (start_script E fuel tty color (mkFs (open_session sid 1 root nxt st tr) false (mkIn text false false) false) ls rest n eq_refl eq_refl Hl Hn)).
Qed.
Print Assumptions C38_script.

(** Every text has such lines. *)
Theorem C38_lines : forall text, exists ls rest, lines_of text ls rest.
Proof. exact lines_exist. Qed.
Print Assumptions C38_lines.

(** When [Start] returns, the exit action ran exactly once, and so did the global one
    if there is one; if an exception leaves [Start], they ran at most once. *)
Theorem C38_exit_once : forall E fuel tty color i sid root nxt st tr s n,
  open_file i true sid root nxt st tr = Some s -> length (in_rest i) < n ->
  let new k evs := hooked k sid evs - hooked k sid tr in
  match fs_start E true fuel tty color n s with
  | LOk f => fs_exit f = true /\ new KSesExit (w_trace (fs_world f)) = 1 /\
      new KCliExit (w_trace (fs_world f)) = if e_has E KCliExit then 1 else 0
  | LExc _ f => new KSesExit (w_trace (fs_world f)) <= 1 /\ new KCliExit (w_trace (fs_world f)) <= 1
  | _ => True
  end.
Proof.
  intros E fuel tty color i sid root nxt st tr s n Ho Hn. unfold open_file, in_good in Ho. destruct i as [text e f].
  destruct e, f; try discriminate. injection Ho as <-. cbn zeta. cbn [in_rest] in Hn.
  destruct (lines_exist text) as (ls & rest & Hl).
  assert (Hlen : length ls < n).
  { destruct Hl as (-> & _). rewrite app_length in Hn. assert (H : length ls <= length (concat (map (fun l => l ++ nl) ls))); [|lia].
    clear. induction ls as [|l ls IH]; cbn; [lia|]. rewrite !app_length. cbn. lia. }
  destruct (start_script E fuel tty color (mkFs (open_session sid 1 root nxt st tr) false (mkIn text false false) false) ls rest n eq_refl eq_refl Hl Hlen) as (_ & H).
  assert (Hb : forall k w, bumps (FE E) k (open_session sid 1 root nxt st tr) w ->
    hooked KSesExit sid (w_trace w) - hooked KSesExit sid tr = k /\ hooked KCliExit sid (w_trace w) - hooked KCliExit sid tr = if e_has E KCliExit then k else 0).
  { intros k w (_ & evs & -> & H1 & H2). cbn [w_trace open_session w_sid] in *. rewrite !hooked_app, H1, H2. unfold both. cbn [FE file_env e_has]. split; lia. }
  destruct (fs_start E true fuel tty color n _) as [f|x f| |]; cbn [done_once] in H; try exact Logic.I.
  - destruct H as (Hx & H). split; [exact Hx|]. apply Hb in H. exact H.
  - destruct H as (k & Hk & H). apply Hb in H. destruct (e_has E KCliExit); lia.
Qed.
Print Assumptions C38_exit_once.

Definition over (text : str) : istream := mkIn text false false.
Definition script_file (text : str) : option fsess := open_file (over text) true 0 demo_root 20 (StVolatile 10 []) [].
Definition demo_text : str := lit "add 1 2" ++ nl ++ nl ++ lit "sub" ++ nl ++ lit "deep y" ++ nl ++ lit "exit" ++ nl ++ lit "add 3 4" ++ nl ++ lit "add 5".
Definition user_calls (evs : list event) : list event := filter is_call evs.
(** The lines up to [exit] are executed. *)
Example C38_nonvacuous : exists s f, script_file demo_text = Some s /\
  lines_of demo_text [lit "add 1 2"; []; lit "sub"; lit "deep y"; lit "exit"; lit "add 3 4"] (lit "add 5") /\
  fs_start full_env true 10 true (fun _ => true) 10 s = LOk f /\
  user_calls (w_trace (fs_world f)) = [EvCall 0 0 [VInt 1; VInt 2]; EvCall 0 0 []] /\
  hooked KSesExit 0 (w_trace (fs_world f)) = 1.
Proof.
  do 2 eexists. split; [reflexivity|]. split.
  { split; [reflexivity|]. split; [repeat (apply Forall_cons; [cbn; intuition discriminate|]); apply Forall_nil|cbn; intuition discriminate]. }
  split; [vm_compute; reflexivity|]. split; vm_compute; reflexivity.
Qed.

(** An unterminated last line is not executed. *)
Theorem C38_last_line_refuted : exists s f, script_file (lit "add 1 2") = Some s /\
  (forall n, 1 <= n -> fs_start full_env true 10 true (fun _ => true) n s = LOk f) /\ user_calls (w_trace (fs_world f)) = [].
Proof.
  do 2 eexists. split; [reflexivity|]. split.
  - intros [|[|n]] Hn; [lia|vm_compute; reflexivity|vm_compute; reflexivity].
  - vm_compute. reflexivity.
Qed.
Print Assumptions C38_last_line_refuted.

(** If the stream was read to its end between the construction and [Start], the
    actions run twice. *)
Theorem C38_eof_twice_refuted : exists s f, script_file [] = Some s /\
  fs_start full_env true 10 true (fun _ => true) 5 (mkFs (fs_world s) (fs_force s) (snd (getline (fs_in s))) (fs_exit s)) = LOk f /\
  hooked KSesExit 0 (w_trace (fs_world f)) = 2 /\ hooked KCliExit 0 (w_trace (fs_world f)) = 2.
Proof. do 2 eexists. split; [reflexivity|]. split; [vm_compute; reflexivity|]. split; reflexivity. Qed.
Print Assumptions C38_eof_twice_refuted.

(** If the user replaces the session's exit action, [Start] never returns. *)
Lemma bind_bind r f g : l_bind (l_bind r f) g = l_bind r (fun s => l_bind (f s) g).
Proof. destruct r; reflexivity. Qed.
Definition replaced_round (s : fsess) : lres :=
  l_bind (fs_prompt true (fun _ => true) s) (fun s1 =>
  l_bind (if in_good (fs_in s1) then LOk s1 else fs_leave full_env false s1) (fun s2 =>
  let (line, i) := getline (fs_in s2) in
  let s3 := mkFs (fs_world s2) (fs_force s2) i (fs_exit s2) in
  if in_eof i then fs_leave full_env false s3 else fs_feed full_env false 10 line s3)).
Lemma replaced_step n s : fs_exit s = false ->
  fs_loop full_env false 10 true (fun _ => true) (S n) s = l_bind (replaced_round s) (fs_loop full_env false 10 true (fun _ => true) n).
Proof.
  intros Hx. cbn [fs_loop]. rewrite Hx. unfold replaced_round. rewrite bind_bind. destruct (fs_prompt true (fun _ => true) s) as [s1| | |]; try reflexivity.
  cbn [l_bind]. rewrite bind_bind. destruct (if in_good (fs_in s1) then LOk s1 else fs_leave full_env false s1) as [s2| | |]; try reflexivity.
  cbn [l_bind]. destruct (getline (fs_in s2)). reflexivity.
Qed.
Definition gone (s : fsess) : Prop :=
  w_exit (fs_world s) = true /\ get_commands (w_hist (fs_world s)) <> None /\ in_eof (fs_in s) = true /\ fs_exit s = false.
Lemma replaced_leave s : gone s -> exists s', fs_leave full_env false s = LOk s' /\ gone s' /\ fs_in s' = fs_in s.
Proof.
  intros (_ & Hh & He & Hf). unfold fs_leave, session_exit, run_hook. cbn.
  destruct (get_commands (w_hist (fs_world s))) eqn:Hc; [|congruence].
  cbn. eexists. split; [reflexivity|]. split; [|reflexivity]. unfold gone. cbn. rewrite Hc, He, Hf. intuition discriminate.
Qed.
Lemma replaced_again s : gone s -> exists s', replaced_round s = LOk s' /\ gone s'.
Proof.
  intros H. unfold replaced_round, fs_prompt, prompt. rewrite (proj1 H). cbn [l_bind fs_in].
  unfold in_good at 1. rewrite (proj1 (proj2 (proj2 H))). cbn [negb andb].
  destruct (replaced_leave (mkFs (out [] (fs_world s)) (fs_force s) (fs_in s) (fs_exit s))) as (s2 & -> & Hg & Hi); [exact H|].
  cbn [l_bind]. unfold getline, in_good. rewrite (proj1 (proj2 (proj2 Hg))). cbn [negb andb in_eof].
  destruct (replaced_leave (mkFs (fs_world s2) (fs_force s2) (mkIn (in_rest (fs_in s2)) true true) (fs_exit s2))) as (s3 & -> & Hg3 & _).
  - destruct Hg as (? & ? & ? & ?). split; [assumption|]. split; [assumption|]. split; [reflexivity|assumption].
  - exists s3. split; [reflexivity|exact Hg3].
Qed.
Lemma replaced_loops n : forall s, gone s -> fs_loop full_env false 10 true (fun _ => true) n s = LFuel.
Proof.
  induction n as [|n IH]; intros s Hs.
  - cbn. destruct Hs as (_ & _ & _ & ->). reflexivity.
  - rewrite replaced_step by apply Hs. destruct (replaced_again s Hs) as (s' & -> & Hs'). exact (IH s' Hs').
Qed.
Theorem C38_replaced_action_refuted : exists s, script_file (lit "exit" ++ nl) = Some s /\
  forall n, fs_start full_env false 10 true (fun _ => true) n s = LFuel.
Proof.
  eexists. split; [reflexivity|]. intros n. unfold fs_start.
  match goal with |- l_bind ?r _ = _ => let r' := eval vm_compute in r in change r with r' end. cbn [l_bind].
  destruct n as [|n]; [vm_compute; reflexivity|]. rewrite replaced_step by reflexivity.
  match goal with |- l_bind ?r _ = _ => let r' := eval vm_compute in r in change r with r' end. cbn [l_bind].
  destruct n as [|n]; [vm_compute; reflexivity|]. rewrite replaced_step by reflexivity.
  match goal with |- l_bind ?r _ = _ => let r' := eval vm_compute in r in change r with r' end. cbn [l_bind].
  apply replaced_loops. split; [reflexivity|]. split; [vm_compute; discriminate|]. split; reflexivity.
Qed.
Print Assumptions C38_replaced_action_refuted.
