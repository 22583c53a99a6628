(** * Menus with commands of any class *)

From Coq Require Import Sorted.
From Verif Require Import Base FromStringModel PrefixSpec MenuModel SessionModel CompletionModel ResolveSpec CompletionSpec VirtualModel VirtualSpec VirtualProofs.
Open Scope nat_scope.
Open Scope list_scope.

(** The commands that are offered a line: all readings of it in order, until one is taken. *)
Theorem C80_offers {W} (enter : nat -> W -> W) : forall toks ctx w, toks <> [] ->
  exists l, all_readings ctx toks l /\ v_scan enter toks ctx w = tried enter (map snd l) w.
Proof. exact (scan_tried enter). Qed.
Print Assumptions C80_offers.
(** The list is determined by the menus and the line. *)
Theorem C80_offers_unique {W} : forall (ctx : list (vcmd W)) toks l1 l2,
  all_readings ctx toks l1 -> all_readings ctx toks l2 -> l1 = l2.
Proof. exact all_readings_unique. Qed.
Print Assumptions C80_offers_unique.

Theorem C80_completions {W} (P : platform) : forall n line (ctx : list (vcmd W)) l, all_menus ctx ->
  v_completions P n line ctx = GOk l -> forall c, In c l <-> completes ctx line c.
Proof. exact (completions_exact' (fun _ w => w) P). Qed.
Print Assumptions C80_completions.

(** Commands that decline everything can as well be removed. *)
Theorem C80_inert {W} (enter : nat -> W -> W) (P : platform) (f : object W -> bool) :
  (forall o, f o = true -> inert o) -> forall ctx toks line n w,
  v_scan enter toks (map (prune f) ctx) w = v_scan enter toks ctx w /\
  v_main_help (map (prune f) ctx) = v_main_help ctx /\
  v_completions P n line (map (prune f) ctx) = v_completions P n line ctx.
Proof.
  intros H ctx toks line n w. exact (conj (scan_prune enter f H toks ctx w) (conj (help_prune f H ctx) (completions_prune f H P n line ctx))).
Qed.
Print Assumptions C80_inert.

(** From a menu without parent only the menus in it can be entered. *)
Theorem C80_orphan {W} : forall (m : vcmd W) ctx toks path id, inside m ctx ->
  vreading ctx toks path (VEnter id) -> In id (v_menus m).
Proof. exact orphan_within. Qed.
Print Assumptions C80_orphan.
(** A menu inserted as a command can be entered, but not left. *)
Theorem C80_leave_refuted : exists (m k : vcmd (list nat)) (id : nat) (name : str),
  In k (v_kids m) /\ v_scan cons [name] [m] [] = VDone true [id] /\
  (forall toks w, toks <> [] -> v_scan cons toks (below k [m]) w = VDone false w).
Proof.
  exists (VMenu 1 (lit "main") true [] [] false [VMenu 2 (lit "sub") true [] [] false []]), (VMenu 2 (lit "sub") true [] [] false []), 2, (lit "sub").
  split; [left; reflexivity|]. split; [vm_compute; reflexivity|]. intros toks w _. reflexivity.
Qed.
Print Assumptions C80_leave_refuted.

(** With the commands of the library alone this is the model used elsewhere. *)
Theorem C80_library (E : env) (bi : hid -> list value -> world -> hres) (P : platform) : forall id name en desc pr kids anc toks line n w,
  let ctx := CMenu id name en desc pr kids :: anc in
  v_scan set_cur toks (virtuals E bi ctx) w = of_eres (scan E bi toks ctx w) /\
  v_main_help (virtuals E bi ctx) = main_help ctx /\
  v_completions P n line (virtuals E bi ctx) = menu_completions P n line ctx.
Proof.
  intros id name en desc pr kids anc toks line n w ctx.
  assert (H : forall m, hd_error ctx = Some m -> exists i n e d p k, m = CMenu i n e d p k).
  { intros m Hm. injection Hm as <-. repeat eexists. }
  split; [symmetry; apply scan_virtual, H|]. split; [apply main_help_virtual, H|symmetry; apply completions_virtual, H].
Qed.
Print Assumptions C80_library.

(** A command taking all lines that begin with a word, one that only watches, a menu, and a
    menu inserted as a command.  The state: the lines seen, and the menus entered. *)
Definition w80 : Type := list (list str) * list nat.
Definition enter80 (id : nat) (w : w80) : w80 := (fst w, id :: snd w).
Definition watch80 : object w80 := mkObj (fun ws w => VDone false (ws :: fst w, snd w)) [] (fun _ => []).
Definition take80 (s : str) : object w80 :=
  mkObj (fun ws w => match ws with t :: _ => VDone (str_eqb s t) w | [] => VUB end) (lit " - " ++ s ++ nl) (fun line => if starts_with line s then [s; s ++ lit "!"] else []).
Definition sub80 : vcmd w80 := VMenu 2 (lit "net") true (lit "network") [] true [VObj (take80 (lit "up")); VObj watch80].
Definition orph80 : vcmd w80 := VMenu 3 (lit "alone") true [] [] false [VObj (take80 (lit "x"))].
Definition root80 : vcmd w80 := VMenu 1 (lit "main") true [] [] false [VObj watch80; sub80; orph80; VObj (take80 (lit "nets"))].
Example C80_nonvacuous :
  all_readings [root80] [lit "net"] [([0], VOffer watch80 [lit "net"]); ([1], VEnter 2); ([3], VOffer (take80 (lit "nets")) [lit "net"])] /\
  v_scan enter80 [lit "net"] [root80] ([], []) = VDone true ([[lit "net"]], [2]) /\
  v_scan enter80 [lit "net"; lit "down"] [root80] ([], []) = VDone false ([[lit "down"]; [lit "net"; lit "down"]], []) /\
  v_scan enter80 [lit ".."] [sub80; root80] ([], []) = VDone true ([[lit ".."]], [1]) /\
  v_scan enter80 [lit ".."] [orph80] ([], []) = VDone false ([], []) /\
  v_completions (mkPlatform true true) 5 (lit "ne") [root80] = GOk [lit "net"; lit "nets"; lit "nets!"] /\
  v_completions (mkPlatform true true) 5 (lit ".. ne") [sub80; root80] = GOk [lit ".. net"; lit ".. nets"; lit ".. nets!"] /\
  v_main_help [sub80; root80] = lit " - up" ++ nl ++ lit " - main" ++ nl ++ tab ++ nl /\
  inside orph80 [orph80] /\ all_menus [sub80; root80] /\
  inert (W := w80) (mkObj (fun _ w => VDone false w) [] (fun _ => [])).
Proof.
  split.
  { split.
    - repeat constructor.
    - intros path t. split.
      + intros [H|[H|[H|[]]]]; injection H as <- <-.
        * apply vr_object; [reflexivity..|discriminate].
        * eapply vr_menu; reflexivity.
        * apply vr_object; [reflexivity..|discriminate].
      + intros H. inversion H as [m anc i o toks He Hn Ht|m anc i id name d pr l kids He Hn|m anc i id name en d pr kids rest q u He Hn Hr
          |m anc i id name en d pr kids rest q u He Hn Hr| |]; subst.
        * destruct i as [|[|[|[|i]]]]; cbn in Hn; try discriminate; [| |destruct i; discriminate]; injection Hn as <-; cbn; auto.
        * destruct i as [|[|[|[|i]]]]; cbn in Hn; try discriminate; [|destruct i; discriminate]. injection Hn as <- <- <-. cbn; auto.
        * apply vreading_words in Hr. congruence.
        * apply vreading_words in Hr. congruence. }
  split; [vm_compute; reflexivity|]. split; [vm_compute; reflexivity|]. split; [vm_compute; reflexivity|].
  split; [vm_compute; reflexivity|]. split; [vm_compute; reflexivity|]. split; [vm_compute; reflexivity|]. split; [vm_compute; reflexivity|].
  split; [apply in_top|]. split; [repeat constructor; repeat eexists|]. repeat split.
Qed.
