(** * C108: what depends on the locale of the program *)

From Verif Require Import Base FromStringModel StorageModel MenuModel SessionModel CompletionModel CompletionSpec CompletionProofs FloatModel FloatSpec
  LocaleModel LocaleSpec LocaleProofs Demo.
Open Scope nat_scope.
Open Scope list_scope.

(** Texts of floating point parameters are read as in the "C" locale, with the roles of
    the decimal point and the full stop exchanged. *)
Theorem C108_reals : forall L P f s, usual L -> l_real L P f s = real_from_string P f (exchanged (lc_point L) s).
Proof. intros L P f s HL. exact (real_ex L P HL f s). Qed.
Print Assumptions C108_reals.

(** So texts in which neither occurs are read the same in all locales. *)
Theorem C108_others : forall L P f s, usual L -> ~ In "."%char s -> ~ In (lc_point L) s -> l_real L P f s = real_from_string P f s.
Proof.
  intros L P f s HL H1 H2. rewrite C108_reals by exact HL. f_equal. unfold exchanged.
  rewrite <- (map_id s) at 2. apply map_ext_in. intros c Hc. unfold exchange.
  destruct (Ascii.eqb_spec c (lc_point L)); [congruence|]. destruct (Ascii.eqb_spec c "."); [congruence|reflexivity].
Qed.
Print Assumptions C108_others.

(** Completions are those of the "C" locale where char is signed, and on lines without
    characters that are white in this locale only. *)
Theorem C108_completion : forall L P fuel line w, usual L -> char_signed P = true \/ Forall (fun c => ~ extra_white L c) line ->
  l_get_completions L P fuel line w = get_completions P fuel line w.
Proof. intros L P fuel line w HL H. exact (get_same L P HL fuel line w H). Qed.
Print Assumptions C108_completion.

(** In the "C" locale nothing differs. *)
Lemma classic_usual : usual classic.
Proof.
  split; [intros c _; rewrite white_space; reflexivity|]. split; [reflexivity|]. split; [reflexivity|]. split; [reflexivity|].
  intros [H|[H|[H|H]]]; vm_compute in H; intuition congruence.
Qed.
Theorem C108_classic : forall P f s fuel line w,
  l_real classic P f s = real_from_string P f s /\ l_get_completions classic P fuel line w = get_completions P fuel line w.
Proof.
  intros P f s fuel line w. split.
  - rewrite C108_reals by exact classic_usual. f_equal. unfold exchanged. rewrite <- (map_id s) at 2. apply map_ext.
    intro c. unfold exchange. cbn [classic lc_point]. destruct (Ascii.eqb_spec c "."); [congruence|reflexivity].
  - apply C108_completion; [exact classic_usual|]. right. apply Forall_forall. intros c _ (H1 & H2).
    rewrite white_space in H2. cbn [classic lc_space] in H1. congruence.
Qed.
Print Assumptions C108_classic.

(** A locale with a decimal comma, and a non-breaking space (byte 160) that is white. *)
Definition comma : locale := mkLocale (fun c => space_code c || Ascii.eqb c "160") ","%char.
Lemma comma_usual : usual comma.
Proof.
  split.
  - intros c Hc. rewrite white_space. cbn [comma lc_space]. destruct (Ascii.eqb_spec c "160") as [->|]; [vm_compute in Hc; discriminate|].
    rewrite Bool.orb_false_r. reflexivity.
  - split; [reflexivity|]. split; [reflexivity|]. split; [reflexivity|].
    intros [H|[H|[H|H]]]; vm_compute in H; intuition congruence.
Qed.
Example C108_nonvacuous : usual classic /\ usual comma /\
  (exists r, l_real comma (mkPlatform true false) Double (lit "-1,5e3") = COk r /\
             real_from_string (mkPlatform true false) Double (lit "-1.5e3") = COk r) /\
  (exists r, l_real comma (mkPlatform true false) Double (lit "0x1F") = COk r) /\
  l_get_completions comma (mkPlatform true false) 40 (lit " sub d") demo_world = GOk [lit "sub deep"] /\
  Forall (fun c => ~ extra_white comma c) (lit " sub d").
Proof.
  split; [exact classic_usual|].
  split; [exact comma_usual|]. split; [eexists; split; vm_compute; reflexivity|]. split; [eexists; vm_compute; reflexivity|].
  split; [vm_compute; reflexivity|]. repeat (constructor; [intros (H1 & H2); vm_compute in H1, H2; congruence|]). constructor.
Qed.

(** It is not so that numbers written as in C++ are accepted in all locales. *)
Theorem C108_point_refuted : exists L P s r, usual L /\ real_from_string P Double s = COk r /\ l_real L P Double s = CBad.
Proof.
  exists comma, (mkPlatform true false), (lit "1.5"). eexists. split; [exact comma_usual|]. split; vm_compute; reflexivity.
Qed.
Print Assumptions C108_point_refuted.

(** Nor so that completion ignores the locale where char is unsigned: a white character
    that commands are not separated by is skipped. *)
Theorem C108_space_refuted : exists L P line, usual L /\ char_signed P = false /\
  get_completions P 40 line demo_world = GOk [] /\ l_get_completions L P 40 line demo_world = GOk [lit "sub"].
Proof.
  exists comma, (mkPlatform false false), ("160"%char :: lit "su"). split; [exact comma_usual|]. split; [reflexivity|].
  split; vm_compute; reflexivity.
Qed.
Print Assumptions C108_space_refuted.
