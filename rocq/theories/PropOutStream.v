(** * C39: properties of the global output stream *)

From Verif Require Import Base OutStreamModel OutStreamSpec OutStreamProofs.
Open Scope nat_scope.
Open Scope list_scope.

(** C39: after any proper run, a stream has received exactly what was written to it
    and what was broadcast while its session was open, in order.  Characters written
    with [sputc] (as by [std::endl]) need streams without a pending field width or error. *)
Theorem C39_broadcast : forall a i b, proper [] [] (a ++ Create i :: b) ->
  ~ In (Destroy i) b /\ ~ In (Create i) b -> Forall no_char b \/ Forall plain_op b ->
  exists y o, o_run o_init (a ++ Create i :: b) = Some y /\ o_str y i = Some o /\ os_text o = told i false b.
Proof. exact broadcast. Qed.
Print Assumptions C39_broadcast.

(** No destroyed stream is used. *)
Theorem C39_defined : forall os, proper [] [] os -> o_run o_init os <> None.
Proof. intros os. exact (run_defined os o_init [] [] matches_init). Qed.
Print Assumptions C39_defined.

(** In general, with the formatting of the streams: strings arrive as they are,
    characters padded, or not at all if the stream is in an error state. *)
Theorem C39_formatted : forall a i b, proper [] [] (a ++ Create i :: b) -> ~ In (Destroy i) b /\ ~ In (Create i) b ->
  exists y o, o_run o_init (a ++ Create i :: b) = Some y /\ o_str y i = Some o /\ os_text o = told_as i false (mkFmt true 0 " "%char false) b.
Proof. exact formatted. Qed.
Print Assumptions C39_formatted.
Example C39_formatted_nonvacuous : exists b, proper [] [] ([] ++ Create 1 :: b) /\ (~ In (Destroy 1) b /\ ~ In (Create 1) b) /\
  told_as 1 false (mkFmt true 0 " "%char false) b = lit "a--bc..d".
Proof.
  exists [Open 1; Format 1 true 3 "-" true; Sputc "a"; Sputn (lit "b"); Format 1 true 0 "." false; Sputc "c"; Format 1 true 3 "." false; Sputc "d"; Format 1 false 3 "." false; Sputc "e"].
  split; [cbn; tauto|]. split; [cbn; intuition discriminate|reflexivity].
Qed.
Print Assumptions C39_formatted_nonvacuous.

Definition demo_ops : list oop :=
  [Create 1; Create 2; Open 1; Sputn (lit "a"); Open 2; Own 2 (lit "x"); Sputn (lit "bc"); Sputc "d"; Close 1; Destroy 1; Own 2 (lit "y"); Sputn (lit "e")].
Example C39_nonvacuous : exists a b, demo_ops = a ++ Create 2 :: b /\ proper [] [] (a ++ Create 2 :: b) /\
  (~ In (Destroy 2) b /\ ~ In (Create 2) b) /\ Forall plain_op b /\ told 2 false b = lit "xbcdye" /\ told 1 false b = lit "abcd".
Proof.
  exists [Create 1], (skipn 2 demo_ops). split; [reflexivity|]. split; [cbn; intuition discriminate|]. split; [cbn; intuition discriminate|].
  split; [repeat (apply Forall_cons; [exact I|]); apply Forall_nil|]. split; reflexivity.
Qed.

Definition text_of (i : nat) (y : option osys) : option str :=
  match y with Some y => option_map os_text (o_str y i) | None => None end.
(** Two sessions on one stream: texts arrive twice, and when one of the sessions is
    closed the other gets nothing any more. *)
Theorem C39_shared_refuted : exists os os',
  told 1 false os = lit "a" /\ text_of 1 (o_run o_init (Create 1 :: os)) = Some (lit "aa") /\
  os' = [Open 1; Open 1; Close 1; Sputn (lit "a")] /\ text_of 1 (o_run o_init (Create 1 :: os')) = Some [].
Proof. exists [Open 1; Open 1; Sputn (lit "a")]. eexists. split; [reflexivity|]. split; [reflexivity|]. split; reflexivity. Qed.
Print Assumptions C39_shared_refuted.

(** A pending field width of a session's stream pads a broadcast newline; a stream in
    an error state gets the strings, but not the newlines. *)
Theorem C39_format_refuted : exists os os', proper [] [] (Create 1 :: os) /\ proper [] [] (Create 1 :: os') /\
  told 1 false os = lit "ab" /\ text_of 1 (o_run o_init (Create 1 :: os)) = Some (lit "a...b") /\
  told 1 false os' = lit "ab" /\ text_of 1 (o_run o_init (Create 1 :: os')) = Some (lit "a").
Proof.
  exists [Open 1; Format 1 true 4 "." false; Sputn (lit "a"); Sputc "b"], [Open 1; Format 1 false 0 "." false; Sputn (lit "a"); Sputc "b"].
  split; [cbn; tauto|]. split; [cbn; tauto|]. split; [reflexivity|]. split; [reflexivity|]. split; reflexivity.
Qed.
Print Assumptions C39_format_refuted.
