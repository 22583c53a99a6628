(** * C10-C15: properties of the command history *)

From Verif Require Import Base HistoryModel HistorySpec HistoryProofs.

(** C10: never more than [size] entries. *)
Theorem C10_history_bounded : forall size h, reachable size h -> length (h_buf h) <= size.
Proof. exact reachable_bounded. Qed.
Print Assumptions C10_history_bounded.

Example C10_nonvacuous : exists h, reachable 3 h /\ h_buf h = [lit "d"; lit "c"; lit "x"] /\ h_oldest h = 2%Z.
Proof.
  eexists. split.
  - exists [OLoad [lit "a"; lit "b"]; ONew (lit "x"); OUp (lit "dr"); ODown; ONew (lit "c"); ONew (lit "d")].
    vm_compute. reflexivity.
  - split; reflexivity.
Qed.

(** C11: the listing shows the numbered entries ... *)
Theorem C11_listing : forall size h, size >= 1 -> reachable size h ->
  show h = Some (listing (view h)).
Proof. exact (fun size h Hs Hr => show_spec h (inv_oldest h (proj1 (reachable_inv size h Hs Hr)))). Qed.
Print Assumptions C11_listing.

(** ... each entry is found again by its number ... *)
Theorem C11_found_by_id : forall size h id s, size >= 1 -> reachable size h ->
  In (id, s) (view h) -> at_id h id = AtOk s.
Proof. exact (fun size h id s Hs Hr => at_id_found h id s (inv_oldest h (proj1 (reachable_inv size h Hs Hr)))). Qed.
Print Assumptions C11_found_by_id.

(** ... an unlisted number raises an exception, provided something was ever
    stored ([0 < next_id h]) ... *)
Theorem C11_unlisted_id : forall size h id, size >= 1 -> reachable size h ->
  (0 <= id)%Z -> (0 < next_id h)%Z -> (forall s, ~ In (id, s) (view h)) -> at_id h id = AtExc.
Proof.
  exact (fun size h id Hs Hr Hid => at_id_missing h id Hid (inv_oldest h (proj1 (reachable_inv size h Hs Hr)))).
Qed.
Print Assumptions C11_unlisted_id.

(** ... but in a history where nothing was ever kept every lookup is undefined
    behaviour ([idOfOldest + size - 1] wraps around). *)
Theorem C11_empty_lookup_ub : forall h id, (0 <= id < 2 ^ 64)%Z -> h_oldest h = 0%Z -> h_buf h = [] ->
  at_id h id = AtUB.
Proof. exact at_id_ub. Qed.
Print Assumptions C11_empty_lookup_ub.

(** Numbers start from 0. *)
Theorem C11_numbers : forall size loaded, view (load_commands (history_init size) loaded) = lastn size (number 0 loaded).
Proof. exact load_numbers. Qed.
Print Assumptions C11_numbers.

(** Entering a command keeps every number; the new entry gets the next one and
    only the oldest entry can go. *)
Theorem C11_ids_stable : forall size h item, size >= 1 -> reachable size h -> h_browse h = false ->
  exists h', new_command h item = Some h' /\ h_browse h' = false /\
    ((last_text (view h) = Some item /\ view h' = view h) \/
     (last_text (view h) <> Some item /\
      view h' = lastn size (view h ++ [(next_id h, item)]))).
Proof. exact r_ids_stable. Qed.
Print Assumptions C11_ids_stable.

(** The same while browsing: only the slot of the line being typed changes. *)
Theorem C11_ids_stable_browsing : forall size h item, size >= 1 -> reachable size h -> h_browse h = true ->
  exists base id draft h', view h = base ++ [(id, draft)] /\ new_command h item = Some h' /\
    h_browse h' = false /\
    ((last_text base = Some item /\ view h' = base) \/
     (last_text base <> Some item /\ view h' = base ++ [(id, item)])).
Proof.
  exact (fun size h item Hs Hr => new_command_browse_view h item (proj1 (reachable_inv size h Hs Hr))).
Qed.
Print Assumptions C11_ids_stable_browsing.

(** All numbers in use are below the next one. *)
Theorem C11_new_id_larger : forall h id s, In (id, s) (view h) -> (h_oldest h <= id < next_id h)%Z.
Proof. exact view_ids. Qed.
Print Assumptions C11_new_id_larger.

Example C11_nonvacuous : exists h, reachable 3 h /\ h_browse h = false /\
  view h = [(2, lit "x"); (3, lit "c"); (4, lit "d")]%Z /\ next_id h = 5%Z /\
  show h = Some (["010"%char] ++ lit "2" ++ ["009"%char] ++ lit "x" ++ ["010"%char] ++ lit "3" ++ ["009"%char] ++ lit "c"
                 ++ ["010"%char] ++ lit "4" ++ ["009"%char] ++ lit "d" ++ ["010"%char; "010"%char]).
Proof.
  eexists. split.
  - exists [OLoad [lit "a"; lit "b"]; ONew (lit "x"); OUp (lit "dr"); ODown; ONew (lit "c"); ONew (lit "d")].
    vm_compute. reflexivity.
  - vm_compute. repeat split.
Qed.

(** C12: [k] Ups walk from the newest to the oldest entry and stay there; [j]
    Downs walk back; as many Downs as effective Ups bring the draft back.  [b] is
    the draft followed by the entries, newest first, cut to the history size (a
    full history loses its oldest entry to the draft). *)
Theorem C12_navigation : forall size h line k j, size >= 1 -> reachable size h -> h_browse h = false ->
  let b := firstn size (line :: h_buf h) in
  1 <= k -> j <= Nat.min k (length b - 1) ->
  exists h1 s1 h2 s2, ups h line k = Some (s1, h1) /\ nth_error b (Nat.min k (length b - 1)) = Some s1 /\
    downs h1 s1 j = Some (s2, h2) /\ nth_error b (Nat.min k (length b - 1) - j) = Some s2 /\
    h_buf h2 = b.
Proof. exact r_navigation. Qed.
Print Assumptions C12_navigation.

(** An entry edited before pressing Up keeps the edit. *)
Theorem C12_edit_kept : forall size h text, size >= 1 -> reachable size h ->
  h_browse h = true -> h_cur h < length (h_buf h) - 1 ->
  exists s h1 h2, previous h text = Some (s, h1) /\ nth_error (h_buf h) (S (h_cur h)) = Some s /\
    next h1 = Some (text, h2).
Proof. exact (fun size h text Hs Hr => edit_kept h text (proj1 (reachable_inv size h Hs Hr))). Qed.
Print Assumptions C12_edit_kept.

Example C12_nonvacuous :
  let os := [OLoad [lit "a"; lit "b"]; ONew (lit "x")] in
  exists h, hrun (history_init 9) os = Some h /\ h_browse h = false /\
    option_map fst (ups h (lit "dr") 2) = Some (lit "b") /\
    option_map fst (ups h (lit "dr") 7) = Some (lit "a") /\
    match ups h (lit "dr") 3 with Some (s, h') => option_map fst (downs h' s 3) = Some (lit "dr") | None => False end.
Proof. eexists. split; [vm_compute; reflexivity|]. vm_compute. repeat split. Qed.

(** Down before any Up shows an empty line instead of the line being typed; and in a
    full history Up drops the oldest entry for good. *)
Theorem C12_down_refuted : exists h, reachable 3 h /\ h_browse h = false /\ h_buf h <> [] /\ option_map fst (next h) = Some [].
Proof. eexists. split; [exists [ONew (lit "a")]; vm_compute; reflexivity|]. repeat split. discriminate. Qed.
Print Assumptions C12_down_refuted.
Theorem C12_evicts_refuted : exists h h1 h2 s1 s2, reachable 2 h /\ map snd (view h) = [lit "a"; lit "b"] /\
  previous h (lit "dr") = Some (s1, h1) /\ next h1 = Some (s2, h2) /\ s2 = lit "dr" /\ map snd (view h2) = [lit "b"; lit "dr"].
Proof.
  do 5 eexists. split; [exists [ONew (lit "a"); ONew (lit "b")]; vm_compute; reflexivity|]. split; [reflexivity|]. split; [vm_compute; reflexivity|].
  split; [vm_compute; reflexivity|]. split; reflexivity.
Qed.
Print Assumptions C12_evicts_refuted.

(** C13: the newest entry is the command just entered, and without edits of
    recalled entries no two neighbours are equal. *)
Theorem C13_newest_is_last_entered : forall size h item, size >= 1 -> reachable size h ->
  exists h', new_command h item = Some h' /\ hd_error (h_buf h') = Some item.
Proof. exact r_newest. Qed.
Print Assumptions C13_newest_is_last_entered.

Theorem C13_no_repeats : forall size loaded os h, size >= 1 -> no_adjacent loaded ->
  tidy_run (load_commands (history_init size) loaded) os h ->
  no_adjacent (committed h).
Proof. exact r_tidy. Qed.
Print Assumptions C13_no_repeats.

Example C13_nonvacuous : exists h,
  tidy_run (load_commands (history_init 5) [lit "a"; lit "b"])
    [ONew (lit "b"); ONew (lit "c"); OUp (lit "dr"); OUp (lit "c"); ONew (lit "b"); ONew (lit "b")] h /\
  committed h = [lit "a"; lit "b"; lit "c"; lit "b"].
Proof.
  eexists. split.
  - repeat (eapply tidy_cons; [cbn; try exact I; try discriminate; try reflexivity|vm_compute; reflexivity|]).
    constructor.
  - reflexivity.
Qed.

(** Editing a recalled entry can create repeats. *)
Theorem C13_edited_refuted : exists h,
  hrun (history_init 5) [ONew (lit "a"); ONew (lit "b"); OUp []; OUp (lit "a"); ONew (lit "z")] = Some h /\
  ~ no_adjacent (committed h).
Proof. eexists. split; [vm_compute; reflexivity|]. intros [H _]. apply H. reflexivity. Qed.
Print Assumptions C13_edited_refuted.

(** C14: what is handed over to the storage: the newest entries, at most as many
    as commands were entered, oldest first, without the line being typed. *)
Theorem C14_stored : forall size h, size >= 1 -> reachable size h ->
  get_commands h = Some (lastn (h_cmds h) (committed h)).
Proof. exact (fun size h Hs Hr => get_commands_spec h (proj1 (reachable_inv size h Hs Hr))). Qed.
Print Assumptions C14_stored.

(** For a session that enters commands without repeats and without browsing:
    exactly the last [size] commands entered. *)
Theorem C14_plain_session : forall size loaded cmds, size >= 1 -> no_adjacent cmds ->
  (forall x, hd_error cmds = Some x -> hd_error (rev loaded) <> Some x) ->
  exists h, hrun (history_init size) (OLoad loaded :: map ONew cmds) = Some h /\
            get_commands h = Some (lastn size cmds).
Proof. exact session_stores. Qed.
Print Assumptions C14_plain_session.

(** In general loaded commands can be stored a second time: repeats are counted
    but not kept. *)
Theorem C14_exact_refuted : exists h,
  hrun (history_init 5) [OLoad [lit "a"; lit "b"]; ONew (lit "b"); ONew (lit "b")] = Some h /\
  get_commands h = Some [lit "a"; lit "b"].
Proof. eexists. split; vm_compute; reflexivity. Qed.
Print Assumptions C14_exact_refuted.

Example C14_nonvacuous :
  no_adjacent [lit "x"; lit "y"; lit "x"] /\
  exists h, hrun (history_init 2) (OLoad [lit "a"; lit "b"] :: map ONew [lit "x"; lit "y"; lit "x"]) = Some h /\
    get_commands h = Some [lit "y"; lit "x"].
Proof. split; [repeat split; discriminate|]. eexists. split; vm_compute; reflexivity. Qed.

(** C15: with size >= 1 no operation sequence goes out of bounds, and in every
    reached state the listing and the hand-over are defined. *)
Theorem C15_no_out_of_bounds : forall size os, size >= 1 ->
  exists h, hrun (history_init size) os = Some h /\ show h <> None /\ get_commands h <> None.
Proof. exact r_safe. Qed.
Print Assumptions C15_no_out_of_bounds.

(** Size 0: the first Up is undefined behaviour. *)
Theorem C15_size_zero_refuted : exists os, hrun (history_init 0) os = None.
Proof. exists [OUp []]. reflexivity. Qed.
Print Assumptions C15_size_zero_refuted.
