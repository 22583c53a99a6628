(** * C77: formatting left on the stream *)

From Verif Require Import Base FromStringSpec HistoryModel HistorySpec HistoryProofs MenuModel TerminalModel SessionModel RangModel FmtModel FmtSpec FmtProofs.
Open Scope nat_scope.
Open Scope list_scope.

(** Numbers and strings, as the library inserts them. *)
Theorem C77_insertions : forall f n s,
  number_text f true n (fst (put_piece f (InsInt n))) /\
  number_text f false n (fst (put_piece f (InsSize n))) /\
  string_text f s (fst (put_piece f (InsStr s))).
Proof. intros f n s. exact (conj (put_int_text f n) (conj (put_size_text f n) (put_str_text f s))). Qed.
Print Assumptions C77_insertions.

(** Help and messages have no numbers: they are those of the other models, but
    for the padding of the first string. *)
Theorem C77_texts : forall w line what l f,
  (help_all w = None <-> help_text w = None) /\
  (forall ps s, help_all w = Some ps -> help_text w = Some s ->
     let first := lit "Commands available:" ++ nl in
     exists rest, s = first ++ rest /\ put_all f ps = (put_str f first ++ rest, no_width f)) /\
  put_all f (wrong_pieces line) = (put_str f (lit "wrong command: ") ++ line ++ nl, no_width f) /\
  put_all f (except_pieces what) = (put_str f what ++ nl, no_width f) /\
  put_all f (unknown_pieces line) =
    (put_str f (lit "Cli. Unknown exception caught handling command line """) ++ line ++ lit """" ++ nl, no_width f) /\
  put_all f (items_pieces l) = (put_str f nl ++ concat (map (fun c => tab ++ c) l) ++ nl, no_width f).
Proof. exact texts_right. Qed.
Print Assumptions C77_texts.

(** The history: numbers in the base that is set. *)
Theorem C77_history : forall size h f, size >= 1 -> reachable size h ->
  exists ps first ts, show_pieces h = Some ps /\ string_text f nl first /\
    Forall2 (line_text (no_width f)) (view h) ts /\ put_all f ps = (first ++ concat ts ++ nl, no_width f).
Proof. exact (fun size h f Hs Hr => show_any h f (inv_oldest h (proj1 (reachable_inv size h Hs Hr)))). Qed.
Print Assumptions C77_history.

(** The colour codes. *)
Theorem C77_codes : forall f n, set_color f n = fst (put_all f (color_pieces n)) /\
  exists a num, set_color f n = a ++ num ++ lit "m" /\ string_text f ["027"; "["]%char a /\ number_text (no_width f) true n num.
Proof. exact color_any. Qed.
Print Assumptions C77_codes.

(** In base 10 they are the numbers [!] understands. *)
Theorem C77_usable : forall f e t w, f_base f = Dec -> f_width f = 0 -> (0 <= fst e < 2 ^ w)%Z -> line_text f e t ->
  exists num, t = num ++ tab ++ snd e ++ nl /\ unsigned_text w num (fst e).
Proof. exact line_usable. Qed.
Print Assumptions C77_usable.

(** With the default base, sign and width, everything is as in the other models. *)
Theorem C77_default : forall h tty color force w f, f_base f = Dec -> f_width f = 0 ->
  match show_pieces h, show h with Some l, Some s => put_all f l = (s, f) | None, None => True | _, _ => False end /\
  (f_showpos f = false ->
   match prompt_pieces tty color force w, prompt tty color force w with
   | Some l, Some (s, _) => put_all f l = (s, f) | None, None => True | _, _ => False end).
Proof. exact (fun h tty color force w f B W => conj (show_plain h f B W) (fun P => prompt_plain tty color force w f B P W)). Qed.
Print Assumptions C77_default.

(** A command that leaves [std::hex] set: the history shows 10 for the entry 16, and
    [! 10] runs another one. *)
Definition c77_lines : list str := map (fun n => "x"%char :: print_N (N.of_nat n)) (seq 0 17).
Definition hex_fmt : fmt := mkFmt Hex false false false 0 " "%char ARight.
Theorem C77_hex_refuted : exists h ps a b, reachable 20 h /\ show_pieces h = Some ps /\
  fst (put_all hex_fmt ps) = a ++ lit "10" ++ tab ++ lit "x16" ++ nl ++ b /\ at_id h 10 = AtOk (lit "x10").
Proof.
  eexists. eexists. eexists (nl ++ concat (map (fun n => in_base 16 false (N.of_nat n) ++ tab ++ "x"%char :: print_N (N.of_nat n) ++ nl) (seq 0 16))). exists nl.
  split; [exists (map ONew c77_lines); vm_compute; reflexivity|]. split; [vm_compute; reflexivity|]. split; vm_compute; reflexivity.
Qed.
Print Assumptions C77_hex_refuted.

Example C77_nonvacuous : exists h ps, reachable 3 h /\ show_pieces h = Some ps /\
  fst (put_all (mkFmt Oct true true false 4 "."%char ALeft) ps)
    = nl ++ lit "..." ++ lit "07" ++ tab ++ lit "x7" ++ nl ++ lit "010" ++ tab ++ lit "x8" ++ nl ++ lit "011" ++ tab ++ lit "x9" ++ nl ++ nl /\
  view h = [(7%Z, lit "x7"); (8%Z, lit "x8"); (9%Z, lit "x9")] /\
  put_int (mkFmt Hex true false true 8 "*"%char AInternal) 173 = lit "0X****AD" /\
  put_int (mkFmt Dec true true true 5 " "%char ARight) 97 = lit "  +97" /\
  put_int (mkFmt Oct true false false 0 " "%char ALeft) 0 = lit "0".
Proof.
  eexists. eexists. split; [exists (map ONew (firstn 10 c77_lines)); vm_compute; reflexivity|]. split; [vm_compute; reflexivity|].
  repeat split; vm_compute; reflexivity.
Qed.
