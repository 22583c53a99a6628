(** * C118: file sessions when reading fails *)

From Verif Require Import Base FromStringModel HistoryModel StorageModel TerminalModel MenuModel SessionModel SessionSpec
  FileModel FileSpec FileProofs FileFailModel FileFailProofs Demo PropFile.
Open Scope nat_scope.
Open Scope list_scope.

(** C118: a file session whose stream fails after [k] bytes of the text runs the lines before
    the failure, then, as a line, the part of the next one that was read; then it exits.
    (With end of file such a part is not run, C38.) *)
Theorem C118_script : forall E fuel tty color text ls rest k sid root nxt st tr s n, lines_of text ls rest ->
  open_file (mkIn (firstn k text) false false) true sid root nxt st tr = Some s -> S (length ls) < n ->
  exists m part more, m <= length ls /\ lines_of (firstn k text) (firstn m ls) part /\ nth m (ls ++ [rest]) [] = part ++ more /\
    same_end (fx_start E true (S fuel) tty color n s)
      (run_script (file_env E) (S fuel) tty color (firstn m ls ++ [part]) false (open_session sid 1 root nxt st tr)).
Proof.
  intros E fuel tty color text ls rest k sid root nxt st tr s n L O N. cbn [open_file in_good in_eof in_fail negb andb] in O. injection O as <-.
  destruct (cut_lines text ls rest k L) as (m & r & M & C & more & T). exists m, r, more.
  split; [exact M|]. split; [exact C|]. split; [exact T|].
  refine (proj1 (start_fails E fuel tty color (mkFs (open_session sid 1 root nxt st tr) false (mkIn (firstn k text) false false) false)
    (firstn m ls) r n eq_refl eq_refl C _)).
  rewrite firstn_length. lia.
Qed.
Print Assumptions C118_script.

(** [Start] returns, and the exit actions ran exactly once; at most once if an exception leaves it. *)
Theorem C118_exit_once : forall E fuel tty color text sid root nxt st tr s n,
  open_file (mkIn text false false) true sid root nxt st tr = Some s -> S (length text) < n ->
  let new k evs := hooked k sid evs - hooked k sid tr in
  match fx_start E true (S fuel) tty color n s with
  | LOk f => fs_exit f = true /\ new KSesExit (w_trace (fs_world f)) = 1 /\
      new KCliExit (w_trace (fs_world f)) = if e_has E KCliExit then 1 else 0
  | LExc _ f => new KSesExit (w_trace (fs_world f)) <= 1 /\ new KCliExit (w_trace (fs_world f)) <= 1
  | _ => True
  end.
Proof.
  intros E fuel tty color text sid root nxt st tr s n O N. cbn [open_file in_good in_eof in_fail negb andb] in O. injection O as <-.
  cbn zeta. destruct (lines_exist text) as (ls & rest & L).
  assert (Hn : S (length ls) < n).
  { destruct L as (-> & _ & _). rewrite app_length in N.
    assert (length ls <= length (concat (map (fun l => l ++ nl) ls))); [|lia].
    clear. induction ls as [|l ls IH]; [reflexivity|]. cbn [map concat length]. rewrite !app_length. cbn [nl length]. lia. }
  pose proof (proj2 (start_fails E fuel tty color (mkFs (open_session sid 1 root nxt st tr) false (mkIn text false false) false)
    ls rest n eq_refl eq_refl L Hn)) as D.
  assert (B : forall k w, bumps (FE E) k (open_session sid 1 root nxt st tr) w ->
    hooked KSesExit sid (w_trace w) - hooked KSesExit sid tr = k /\ hooked KCliExit sid (w_trace w) - hooked KCliExit sid tr = if e_has E KCliExit then k else 0).
  { intros k w (_ & evs & -> & H1 & H2). cbn [w_trace open_session w_sid] in *. rewrite !hooked_app, H1, H2. unfold both. cbn [FE file_env e_has]. split; lia. }
  destruct (fx_start E true (S fuel) tty color n _) as [f|x f| |]; try exact Logic.I; cbn [done_once fs_world] in D.
  - destruct D as (X & D). split; [exact X|]. exact (B 1 _ D).
  - destruct D as (k & K & D). destruct (B k _ D) as (-> & ->). destruct (e_has E KCliExit); lia.
Qed.
Print Assumptions C118_exit_once.

(** So a command is run that is not in the file: [add 1 2] instead of [add 1 23]. *)
Theorem C118_whole_refuted : exists text k s f, text = lit "add 1 23" ++ nl /\ k < length text /\
  open_file (mkIn (firstn k text) false false) true 0 (w_root demo_world) (w_next demo_world) (w_store demo_world) [] = Some s /\
  fx_start full_env true 10 true (fun _ => true) 10 s = LOk f /\
  user_calls (w_trace (fs_world f)) = [EvCall 0 0 [VInt 1; VInt 2]].
Proof.
  exists (lit "add 1 23" ++ nl), 7. do 2 eexists. split; [reflexivity|]. split; [cbn; lia|]. split; [reflexivity|].
  split; [vm_compute; reflexivity|]. vm_compute. reflexivity.
Qed.
Print Assumptions C118_whole_refuted.

(** The first line, and the part [add 3 4] of the third one. *)
Example C118_nonvacuous : let text := lit "add 1 2" ++ nl ++ nl ++ lit "add 3 45" ++ nl ++ lit "x" in
  lines_of text [lit "add 1 2"; []; lit "add 3 45"] (lit "x") /\
  exists s f, open_file (mkIn (firstn 16 text) false false) true 0 (w_root demo_world) (w_next demo_world) (w_store demo_world) [] = Some s /\
    fx_start full_env true 10 true (fun _ => true) 10 s = LOk f /\
    user_calls (w_trace (fs_world f)) = [EvCall 0 0 [VInt 1; VInt 2]; EvCall 0 0 [VInt 3; VInt 4]] /\
    hooked KSesExit 0 (w_trace (fs_world f)) = 1.
Proof.
  cbn zeta. split.
  { split; [reflexivity|]. split; [repeat (apply Forall_cons; [cbn; intuition discriminate|]); apply Forall_nil|cbn; intuition discriminate]. }
  do 2 eexists. split; [reflexivity|]. split; [vm_compute; reflexivity|]. split; vm_compute; reflexivity.
Qed.
