(** * Proofs about the example program pluginmanager.cpp *)

From Coq Require Import Sorted Permutation.
From Verif Require Import Base SplitModel SplitSpec SplitProofs FromStringModel FromStringSpec FromStringProofs HistoryModel HistorySpec HistoryProofs
  StorageModel StorageSpec StorageProofs TerminalModel CompletionModel CompletionSpec CompletionProofs MenuModel SessionModel SessionSpec ResolveProofs SafetyProofs
  ExampleModel ExampleSpec ExampleProofs CompleteModel CompleteSpec CompleteProofs PluginModel PluginSpec.
Open Scope nat_scope.
Open Scope list_scope.

(** ** Which commands can be meant, for any functions *)
Section Any.
Context (E : env) (bi : hid -> list value -> world -> hres).
Notation no w := (EDone false w).
Lemma not_meant t rest cx k w : could t (length rest) k = false -> exec E bi (t :: rest) cx k w = no w.
Proof.
  destruct k as [i name en d ps pd h|i name en d pd h|i name en d pr ks]; cbn [could exec exec_leaf]; intros H.
  - destruct en; [|reflexivity]. cbn [negb andb] in *. cbn [length]. rewrite Nat.add_1_r. cbn [Nat.eqb].
    destruct (Nat.eqb (length rest) (length ps)); cbn [negb andb] in *; [|reflexivity]. rewrite H. reflexivity.
  - destruct en; [|reflexivity]. cbn [negb andb] in *. rewrite H. reflexivity.
  - destruct en; [|destruct rest; reflexivity]. cbn [andb] in H. destruct rest; cbn [handle negb]; rewrite H; reflexivity.
Qed.
Lemma try_meant t rest cx l w : try_all (exec E bi (t :: rest) cx) l w =
  try_all (exec E bi (t :: rest) cx) (filter (could t (length rest)) l) w.
Proof.
  revert w. induction l as [|k l IH]; intros w; [reflexivity|]. cbn [filter]. destruct (could t (length rest) k) eqn:Hk; cbn [try_all].
  - destruct (exec E bi (t :: rest) cx k w) as [[] w'| | |]; try reflexivity. apply IH.
  - rewrite not_meant by exact Hk. apply IH.
Qed.
Lemma bind_not r (f : world -> eres) : (forall w, f w = no w) -> e_bind r f = r.
Proof. intros H. destruct r as [[|] w| | |]; cbn; auto. Qed.
Lemma menu_meant up id name d pr kids anc t rest w :
  handle E bi (t :: rest) up (CMenu id name true d pr kids :: anc) w =
  if str_eqb name t || (up && str_eqb (lit "..") t) then match rest with [] => EDone true (set_cur id w) | _ => scan E bi rest (CMenu id name true d pr kids :: anc) w end
  else no w.
Proof.
  destruct rest as [|r rest].
  - cbn [handle negb]. destruct (str_eqb name t || _); reflexivity.
  - rewrite handle_scan. reflexivity.
Qed.
Lemma scan_meant id name d pr kids anc t rest w :
  scan E bi (t :: rest) (CMenu id name true d pr kids :: anc) w =
  e_bind (try_all (exec E bi (t :: rest) (CMenu id name true d pr kids :: anc)) (filter (could t (length rest)) kids) w)
    (fun w1 => match anc with [] => no w1 | _ => handle E bi (t :: rest) true anc w1 end).
Proof. unfold scan. cbn [cmd_en negb cmd_kids]. rewrite try_meant. reflexivity. Qed.
Lemma scan_sole id name d pr kids anc t rest k w : filter (could t (length rest)) kids = [k] ->
  scan E bi (t :: rest) (CMenu id name true d pr kids :: anc) w =
  e_bind (exec E bi (t :: rest) (CMenu id name true d pr kids :: anc) k w) (fun w1 => match anc with [] => no w1 | _ => handle E bi (t :: rest) true anc w1 end).
Proof. intros H. rewrite scan_meant, H. cbn [try_all]. rewrite (bind_not _ (fun w0 => no w0)) by reflexivity. reflexivity. Qed.
Lemma scan_nothing id name d pr kids anc t rest w : filter (could t (length rest)) kids = [] ->
  scan E bi (t :: rest) (CMenu id name true d pr kids :: anc) w = match anc with [] => no w | _ => handle E bi (t :: rest) true anc w end.
Proof. intros H. rewrite scan_meant, H. reflexivity. Qed.
Lemma exec_meant i t d ps pd n rest cx w : length rest = length ps ->
  exec E bi (t :: rest) cx (CFn i t true d ps pd (HUser n)) w =
  match convert_all E ps rest with COk vs => run_fn E bi (HUser n) vs w | CBad => no w | CUB => EUB end.
Proof.
  intros H. cbn [exec exec_leaf negb length]. rewrite H, Nat.add_1_r, Nat.eqb_refl, str_eqb_refl. reflexivity.
Qed.
Lemma none_meant t n kids : Forall (fun k => str_eqb (cmd_name k) t = false) kids -> filter (could t n) kids = [].
Proof.
  induction 1 as [|k l Hk _ IH]; [reflexivity|]. cbn [filter]. rewrite IH. destruct k; cbn [could cmd_name] in *; rewrite Hk, andb_false_r; reflexivity.
Qed.
End Any.
Ltac name t a := let H := fresh in destruct (str_eqb (lit a) t) eqn:H; [apply str_eqb_eq in H; subst t|].
Ltac not_named := repeat (apply Forall_cons; [cbn [cmd_name]; match goal with H : ?x = false |- ?x = false => exact H end|]); apply Forall_nil.
Ltac compute_filter := cbn [length];
  try match goal with |- context [length ?l] => is_var l; let n := fresh in generalize (length l); intros n; destruct n as [|[|[|[|n]]]] end;
  vm_compute; reflexivity.
Lemma global_any E rec t rest w : scan E (builtin E rec) (t :: rest) [global_menu] w =
  if str_eqb (lit "help") t then match rest with [] => run_fn E (builtin E rec) HHelp [] w | _ => EDone false w end
  else if str_eqb (lit "exit") t then match rest with [] => run_fn E (builtin E rec) HExit [] w | _ => EDone false w end
  else if str_eqb (lit "history") t then match rest with [] => run_fn E (builtin E rec) HHistory [] w | _ => EDone false w end
  else if str_eqb (lit "!") t then match rest with
    | [s] => match int_from_string (e_plat E) UInt s with COk v => run_fn E (builtin E rec) HBang [VInt v] w | CBad => EDone false w | CUB => EUB end
    | _ => EDone false w end
  else EDone false w.
Proof.
  unfold global_menu.
  name t "help"%string.
  { destruct rest as [|r rest]; [|rewrite scan_nothing by compute_filter; reflexivity].
    rewrite (scan_sole _ _ _ _ _ _ _ _ _ _ (CFn 1 (lit "help") true (lit "This help message") [] [] HHelp)) by compute_filter. rewrite bind_not by reflexivity. reflexivity. }
  name t "exit"%string.
  { destruct rest as [|r rest]; [|rewrite scan_nothing by compute_filter; reflexivity].
    rewrite (scan_sole _ _ _ _ _ _ _ _ _ _ (CFn 2 (lit "exit") true (lit "Quit the session") [] [] HExit)) by compute_filter. rewrite bind_not by reflexivity. reflexivity. }
  name t "history"%string.
  { destruct rest as [|r rest]; [|rewrite scan_nothing by compute_filter; reflexivity].
    rewrite (scan_sole _ _ _ _ _ _ _ _ _ _ (CFn 3 (lit "history") true (lit "Show the history") [] [] HHistory)) by compute_filter. rewrite bind_not by reflexivity. reflexivity. }
  name t "!"%string.
  { destruct rest as [|r [|r' rest]]; [rewrite scan_nothing by compute_filter; reflexivity| |rewrite scan_nothing by compute_filter; reflexivity].
    rewrite (scan_sole _ _ _ _ _ _ _ _ _ _ (CFn 4 (lit "!") true (lit "Exec a command by index in the history") [PInt UInt] [lit "history entry index"] HBang)) by compute_filter.
    rewrite bind_not by reflexivity.
    cbn [exec exec_leaf negb length Nat.eqb Nat.add]. rewrite str_eqb_refl. cbn [convert_all convert]. destruct (int_from_string (e_plat E) UInt r); reflexivity. }
  rewrite scan_nothing; [reflexivity|]. apply none_meant. not_named.
Qed.

(** ** The menus *)
Definition mid (n : nat) : nat := 17 + 4 * n.
Definition plug (x : nat * str) : cmd := fst (relabel (mid (fst x)) (pm_menu (snd x))).
Definition can_color (paint : option bool) : bool := match paint with Some true => false | _ => true end.
Definition can_nocolor (paint : option bool) : bool := match paint with Some false => false | _ => true end.
Definition base (paint : option bool) : list cmd := [
  CFn 11 (lit "list") true (lit "Print the plugin list") [] [] (HUser 0);
  CFn 12 (lit "loaded") true (lit "Load the plugin specified") [] [] (HUser 1);
  CFn 13 (lit "load") true (lit "Load the plugin specified") [PString] [lit "plugin_name"] (HUser 2);
  CFn 14 (lit "unload") true (lit "Unload the plugin specified") [PString] [lit "plugin_name"] (HUser 3);
  CFn 15 (lit "color") (can_color paint) (lit "Enable colors in the cli") [] [] (HUser 4);
  CFn 16 (lit "nocolor") (can_nocolor paint) (lit "Disable colors in the cli") [] [] (HUser 5) ].
Definition tree (paint : option bool) (l : list (nat * str)) : cmd :=
  CMenu 10 (lit "cli") true (lit "(menu)") (lit "cli") (base paint ++ map plug l).
Lemma tree_start : pm_root = tree None [].
Proof. reflexivity. Qed.
Definition fine_list (count : nat) (l : list (nat * str)) : Prop := Forall (fun x => fst x < count /\ known (snd x)) l /\ NoDup (map fst l).

Definition arith_kids (m : nat) : list cmd := [
  CFn (1 + m) (lit "add") true (lit "Print the sum of the two numbers") [PInt Int; PInt Int] [lit "first_term"; lit "second_term"] (HUser 6);
  CFn (2 + m) (lit "add") true (lit "Print the sum of the three numbers") [PInt Int; PInt Int; PInt Int] [] (HUser 7);
  CFn (3 + m) (lit "sub") true (lit "Print the result of a subtraction") [PInt Int; PInt Int] [lit "subtrahend"; lit "minuend"] (HUser 8) ].
Definition string_kids (m : nat) : list cmd := [
  CFn (1 + m) (lit "reverse") true (lit "Print the reverse string") [PString] [lit "string_to_revert"] (HUser 9);
  CFn (2 + m) (lit "upper") true (lit "Print the string in uppercase") [PString] [] (HUser 10);
  CFree (3 + m) (lit "sort") true (lit "Alphabetically sort a list of words") [lit "list of strings separated by space"] (HUser 11) ].
Lemma plug_arith n : plug (n, lit "arithmetic") = CMenu (mid n) (lit "arithmetic") true (lit "Enter the arithmetic plugin menu") (lit "arithmetic") (arith_kids (mid n)).
Proof. reflexivity. Qed.
Lemma plug_strings n : plug (n, lit "strings") = CMenu (mid n) (lit "strings") true (lit "Enter the strings plugin menu") (lit "strings") (string_kids (mid n)).
Proof. reflexivity. Qed.
Lemma relabel_count m p : known p -> relabel m (pm_menu p) = (fst (relabel m (pm_menu p)), 4 + m).
Proof. intros [-> | ->]; reflexivity. Qed.
Lemma plug_id x : known (snd x) -> cmd_id (plug x) = mid (fst x).
Proof. destruct x as [n p]. intros [H|H]; cbn [snd] in H; subst p; reflexivity. Qed.
Lemma plug_insert c x : known (snd x) -> insert_cmd 10 c (plug x) = plug x.
Proof. destruct x as [n p]. intros [H|H]; cbn [snd] in H; subst p; reflexivity. Qed.
Lemma plug_enable i b x : i < 17 -> known (snd x) -> set_enabled i b (plug x) = plug x.
Proof.
  destruct x as [n p]. intros Hi [H|H]; cbn [snd] in H; subst p; [rewrite plug_arith|rewrite plug_strings];
    unfold arith_kids, string_kids; cbn [set_enabled map]; unfold mid;
    repeat match goal with |- context [Nat.eqb ?a i] => rewrite (proj2 (Nat.eqb_neq a i)) by lia end; reflexivity.
Qed.
Lemma plug_remove i x : known (snd x) -> remove_cmd (mid i) (plug x) = plug x.
Proof.
  destruct x as [n p]. intros [H|H]; cbn [snd] in H; subst p; [rewrite plug_arith|rewrite plug_strings];
    unfold arith_kids, string_kids; cbn [remove_cmd cmd_id]; unfold mid;
    repeat match goal with |- context [Nat.eqb ?a ?b] => rewrite (proj2 (Nat.eqb_neq a b)) by lia end; reflexivity.
Qed.
Lemma plug_locate i anc x : known (snd x) -> locate (mid i) anc (plug x) = if Nat.eqb (fst x) i then Some (plug x :: anc) else None.
Proof.
  destruct x as [n p]. cbn [fst]. intros [H|H]; cbn [snd] in H; subst p; [rewrite plug_arith|rewrite plug_strings];
    unfold arith_kids, string_kids; cbn [locate]; unfold mid;
    (destruct (Nat.eqb_spec n i) as [->|Hne]; [rewrite Nat.eqb_refl; reflexivity|rewrite (proj2 (Nat.eqb_neq _ _)) by lia; reflexivity]).
Qed.
Lemma map_same {A} (f : A -> A) l : Forall (fun x => f x = x) l -> map f l = l.
Proof. induction 1 as [|x l H _ IH]; [reflexivity|]. cbn. rewrite H, IH. reflexivity. Qed.
Lemma plugs_same (f : cmd -> cmd) count l : fine_list count l -> (forall x, known (snd x) -> f (plug x) = plug x) -> map f (map plug l) = map plug l.
Proof.
  intros (H & _) Hf. apply map_same. apply Forall_map. eapply Forall_impl; [|exact H]. intros x (_ & Hk). apply Hf, Hk.
Qed.
Lemma tree_insert paint count l p : fine_list count l -> insert_cmd 10 (plug (count, p)) (tree paint l) = tree paint (l ++ [(count, p)]).
Proof.
  intros H. unfold tree. cbn [insert_cmd Nat.eqb]. rewrite map_app, (plugs_same _ _ _ H) by (intros; apply plug_insert; assumption).
  f_equal. cbn [base map insert_cmd]. rewrite <- app_assoc, map_app. reflexivity.
Qed.
Lemma tree_color paint count l : fine_list count l -> set_enabled 16 true (set_enabled 15 false (tree paint l)) = tree (Some true) l.
Proof.
  intros H. unfold tree. cbn [set_enabled Nat.eqb]. f_equal. rewrite !map_app, !(plugs_same _ _ _ H) by (intros; apply plug_enable; [lia|assumption]). reflexivity.
Qed.
Lemma tree_nocolor paint count l : fine_list count l -> set_enabled 16 false (set_enabled 15 true (tree paint l)) = tree (Some false) l.
Proof.
  intros H. unfold tree. cbn [set_enabled Nat.eqb]. f_equal. rewrite !map_app, !(plugs_same _ _ _ H) by (intros; apply plug_enable; [lia|assumption]). reflexivity.
Qed.
Definition without (n : nat) (l : list (nat * str)) : list (nat * str) := filter (fun x => negb (Nat.eqb (fst x) n)) l.
Lemma without_not n l : ~ In n (map fst l) -> without n l = l.
Proof.
  intros H. induction l as [|x l IH]; [reflexivity|]. cbn in H. cbn [without filter]. fold (without n l).
  destruct (Nat.eqb_spec (fst x) n); [tauto|]. cbn [negb]. rewrite IH by tauto. reflexivity.
Qed.
Lemma tree_remove paint count l n : fine_list count l -> remove_cmd (mid n) (tree paint l) = tree paint (without n l).
Proof.
  intros (Hk & Hd). unfold tree. cbn [remove_cmd]. f_equal. cbn [base app cmd_id]. change (mid n) with (S (S (S (S (S (S (S (S (S (S (S (S (S (S (S (S (S (4 * n)))))))))))))))))).
  cbn [Nat.eqb]. do 6 apply f_equal.
  change (S (S (S (S (S (S (S (S (S (S (S (S (S (S (S (S (S (4 * n)))))))))))))))))) with (mid n).
  induction l as [|x l IH]; [reflexivity|]. cbn [map without filter]. fold (without n l). inversion Hk as [|? ? (_ & Hx) Hk']; subst. inversion Hd as [|? ? Hnin Hd']; subst.
  rewrite plug_id by exact Hx. destruct (Nat.eqb_spec (fst x) n) as [He|Hne].
  - rewrite He, Nat.eqb_refl. cbn [negb]. rewrite without_not by (rewrite <- He; exact Hnin). reflexivity.
  - rewrite (proj2 (Nat.eqb_neq _ _)) by (unfold mid; lia). cbn [negb map]. rewrite plug_remove by exact Hx. f_equal. apply IH; assumption.
Qed.
Definition where_ (s : spot) : nat := match s with Home => 10 | Within n => mid n end.
Lemma tree_home paint l : locate 10 [] (tree paint l) = Some [tree paint l].
Proof. reflexivity. Qed.
Lemma tree_locate paint count l n : fine_list count l -> locate (mid n) [] (tree paint l) =
  match find (fun x => Nat.eqb (fst x) n) l with Some x => Some [plug x; tree paint l] | None => None end.
Proof.
  intros (Hk & _). set (t := tree paint l). unfold t at 1, tree. cbn [locate]. rewrite (proj2 (Nat.eqb_neq 10 (mid n))) by (unfold mid; lia).
  fold (tree paint l). fold t. cbn [base app locate]. clearbody t.
  induction l as [|x l IH]; [reflexivity|]. inversion Hk as [|? ? (_ & Hx) Hk']; subst. cbn [map find]. rewrite plug_locate by exact Hx.
  destruct (Nat.eqb (fst x) n); [reflexivity|]. apply IH, Hk'.
Qed.
Lemma find_in (l : list (nat * str)) n p : NoDup (map fst l) -> In (n, p) l -> find (fun x => Nat.eqb (fst x) n) l = Some (n, p).
Proof.
  induction l as [|x l IH]; intros Hd Hin; [destruct Hin|]. inversion Hd as [|? ? Hnin Hd']; subst. cbn [find]. destruct Hin as [->|Hin].
  - cbn [fst]. rewrite Nat.eqb_refl. reflexivity.
  - destruct (Nat.eqb_spec (fst x) n) as [He|]; [|apply IH; assumption]. exfalso. apply Hnin. rewrite He. exact (in_map fst _ _ Hin).
Qed.
Lemma find_not (l : list (nat * str)) n : ~ In n (map fst l) -> find (fun x => Nat.eqb (fst x) n) l = None.
Proof.
  induction l as [|x l IH]; intros H; [reflexivity|]. cbn [find]. cbn in H. destruct (Nat.eqb_spec (fst x) n); [tauto|]. apply IH. tauto.
Qed.

(** ** Small facts *)
Lemma upper_capital c : capital c (upper_char c).
Proof.
  unfold capital. set (lower := lit "abcdefghijklmnopqrstuvwxyz"). destruct (in_dec ascii_dec c lower) as [Hin|Hout]; [left|right].
  - apply In_nth_error in Hin as (i & Hi). exists i. split; [exact Hi|].
    assert (Hl : i < 26) by (change 26 with (length lower); apply nth_error_Some; congruence).
    do 26 (destruct i as [|i]; [vm_compute in Hi; injection Hi as <-; reflexivity|]). lia.
  - split; [exact Hout|]. destruct c as [[] [] [] [] [] [] [] []]; first [reflexivity|exfalso; apply Hout; vm_compute; tauto].
Qed.
Lemma capital_unique a b b' : capital a b -> capital a b' -> b = b'.
Proof.
  intros [(i & Ha & Hb)|(Hn & ->)] [(j & Ha' & Hb')|(Hn' & ->)]; [| | |reflexivity].
  - assert (i = j); [|subst; congruence].
    assert (Hnd : NoDup (lit "abcdefghijklmnopqrstuvwxyz")) by (vm_compute; repeat (constructor; [vm_compute; intuition discriminate|]); constructor).
    eapply NoDup_nth_error; [exact Hnd| |congruence]. apply nth_error_Some. congruence.
  - exfalso. apply Hn'. eapply nth_error_In, Ha.
  - exfalso. apply Hn. eapply nth_error_In, Ha'.
Qed.
Lemma capitals_unique s : forall t t', Forall2 capital s t -> Forall2 capital s t' -> t = t'.
Proof.
  induction s as [|a s IH]; intros t t' H H'; inversion H; inversion H'; subst; [reflexivity|]. f_equal; [eapply capital_unique; eassumption|]. apply IH; assumption.
Qed.
Lemma uppers s : Forall2 capital s (map upper_char s).
Proof. induction s as [|c s IH]; cbn; constructor; [apply upper_capital|exact IH]. Qed.
Lemma known_dec p : {known p} + {~ known p}.
Proof.
  destruct (list_eq_dec ascii_dec p (lit "arithmetic")) as [->|H1]; [left; left; reflexivity|].
  destruct (list_eq_dec ascii_dec p (lit "strings")) as [->|H2]; [left; right; reflexivity|]. right. intros [?|?]; contradiction.
Qed.
Lemma known_registered ar p : existsb (str_eqb p) (pm_plugins ar) = true <-> known p.
Proof.
  rewrite existsb_exists. split.
  - intros (q & Hin & Hq). apply str_eqb_eq in Hq. subst q. destruct ar; destruct Hin as [<-|[<-|[]]]; unfold known; auto.
  - intros H. exists p. split; [|apply str_eqb_refl]. destruct ar, H as [-> | ->]; cbn; auto.
Qed.
Lemma named_eqb p x : named p x = str_eqb (snd x) p.
Proof.
  unfold named. destruct (list_eq_dec ascii_dec (snd x) p) as [->|H]; [rewrite str_eqb_refl; reflexivity|].
  destruct (str_eqb (snd x) p) eqn:He; [apply str_eqb_eq in He; contradiction|reflexivity].
Qed.
Lemma first_named (l : list (nat * str)) t x more : filter (named t) l = x :: more ->
  snd x = t /\ exists l1 l2, l = l1 ++ (fst x, t) :: l2 /\ Forall (fun y => snd y <> t) l1 /\ filter (named t) l2 = more.
Proof.
  induction l as [|y l IH]; intros H; [discriminate|]. cbn [filter] in H. rewrite named_eqb in H. destruct (str_eqb (snd y) t) eqn:Hy.
  - injection H as -> H. apply str_eqb_eq in Hy. split; [exact Hy|]. exists [], l. split; [destruct x; cbn in *; subst; reflexivity|]. split; [constructor|exact H].
  - destruct (IH H) as (A & l1 & l2 & -> & B & C). split; [exact A|]. exists (y :: l1), l2. split; [reflexivity|]. split; [|exact C].
    constructor; [|exact B]. intros Hc. rewrite Hc, str_eqb_refl in Hy. discriminate.
Qed.
Lemma none_named (l : list (nat * str)) t : filter (named t) l = [] -> ~ In t (map snd l).
Proof.
  intros H Hin. apply in_map_iff in Hin as (x & Hx & Hin). assert (Hf : In x (filter (named t) l)); [|rewrite H in Hf; exact Hf].
  apply filter_In. split; [exact Hin|]. rewrite named_eqb, Hx. apply str_eqb_refl.
Qed.

(** ** The specification gives no choice *)
Section Unique.
Context (registered : list str).
Lemma way_unique d p w q q' : way d p w q -> way d p w q' -> q = q'.
Proof.
  intros H H'. inversion H as [l1 n ? l2 Hl Hf| |]; subst; inversion H' as [l1' n' ? l2' Hl' Hf'| |]; subst; try reflexivity.
  f_equal. assert (Hg : forall a b, a ++ (n, w) :: b = l1' ++ (n', w) :: l2' -> Forall (fun x => snd x <> w) a -> n = n').
  { clear - Hf'. induction l1' as [|y l1' IH]; intros a b E Ha.
    - destruct a as [|z a]; cbn in E; injection E; intros; [auto|]. subst. inversion Ha; subst. contradiction.
    - inversion Hf' as [|? ? Hy Hf'']; subst. destruct a as [|z a]; cbn in E; injection E; intros; subst; [contradiction|]. inversion Ha; subst. eapply IH; eassumption. }
  eapply Hg; [|exact Hf]. rewrite <- Hl, Hl'. reflexivity.
Qed.
Definition names_ok (d : shop) : Prop := Forall (fun x => known (snd x)) (p_loaded d) /\ NoDup (map fst (p_loaded d)).
Lemma inside_unique d n p p' : names_ok d -> In (n, p) (p_loaded d) -> In (n, p') (p_loaded d) -> p = p'.
Proof.
  intros (_ & Hd) H H'. pose proof (find_in _ _ _ Hd H) as E1. pose proof (find_in _ _ _ Hd H') as E2. congruence.
Qed.
Lemma way_home d w q : names_ok d -> way d Home w q -> known w.
Proof.
  intros (Hk & _) H. inversion H as [l1 n ? l2 Hl Hf| |]; subst. rewrite Hl in Hk. apply Forall_app in Hk as (_ & Hk). inversion Hk; subst. assumption.
Qed.
Lemma deeds_unique d p ws e : names_ok d -> deeds registered d p ws e -> forall e', deeds registered d p ws e' -> e = e'.
Proof.
  intros Hok. assert (Hnil : forall q e0, ~ deeds registered d q [] e0) by (intros q e0 H; inversion H).
  assert (Hw : forall w q, way d Home w q -> w <> lit "list" /\ w <> lit "loaded" /\ w <> lit "load" /\ w <> lit "unload" /\ w <> lit "color" /\ w <> lit "nocolor").
  { intros w q H. apply way_home in H; [|exact Hok]. destruct H as [-> | ->]; repeat split; discriminate. }
  assert (Hi : forall n w q, way d (Within n) w q -> w = lit "cli" \/ w = lit "..") by (intros n w q H; inversion H; auto).
  assert (Hboth : forall n, inside d n "arithmetic" -> inside d n "strings" -> False).
  { intros n A B. pose proof (inside_unique d n _ _ Hok A B). discriminate. }
  intros H. induction H; intros e' He'; inversion He'; subst; try discriminate; try reflexivity; try contradiction;
    try (exfalso; eapply Hnil; eassumption);
    try (match goal with H : way _ Home (_ :: _) _ |- _ => exfalso; apply Hw in H as (W1 & W2 & W3 & W4 & W5 & W6) | H : way _ Home (lit _) _ |- _ => exfalso; apply Hw in H as (W1 & W2 & W3 & W4 & W5 & W6) end;
      first [apply W1; reflexivity|apply W2; reflexivity|apply W3; reflexivity|apply W4; reflexivity|apply W5; reflexivity|apply W6; reflexivity]);
    try (match goal with H : way _ (Within _) (_ :: _) _ |- _ => exfalso; apply Hi in H as [H|H]; discriminate H | H : way _ (Within _) (lit _) _ |- _ => exfalso; apply Hi in H as [H|H]; discriminate H end);
    try (exfalso; eapply Hboth; eassumption);
    repeat match goal with
    | H1 : int_text Int ?s ?x, H2 : int_text Int ?s ?y |- _ => assert (x = y) by (eapply int_text_unique; eassumption); subst y; clear H2
    end; try reflexivity; try contradiction; try tauto.
  - match goal with H1 : Forall2 capital _ _, H2 : Forall2 capital _ _ |- _ => rewrite (capitals_unique _ _ _ H1 H2) end. reflexivity.
  - assert (l = l0) by (apply sorted_unique; [transitivity ws; [symmetry|]; assumption|assumption|assumption]). subst. reflexivity.
  - f_equal. eapply way_unique; eassumption.
  - match goal with H1 : way d ?p ?w ?q, H2 : way d ?p ?w ?q' |- _ => rewrite (way_unique d p w q q' H1 H2) in * end. apply IHdeeds. assumption.
Qed.
Lemma deeds_global d p ws e : names_ok d -> deeds registered d p ws e ->
  ws <> [] /\ ws <> [lit "help"] /\ ws <> [lit "exit"] /\ ws <> [lit "history"] /\ ~ is_recall ws.
Proof.
  intros Hok. assert (Hd : forall q w q', way d q w q' -> w <> lit "help" /\ w <> lit "exit" /\ w <> lit "history" /\ w <> lit "!").
  { intros q w q' H. destruct q as [|n].
    - apply way_home in H; [|exact Hok]. destruct H as [-> | ->]; repeat split; discriminate.
    - inversion H; repeat split; discriminate. }
  intros H. inversion H; subst; try (repeat split; try discriminate; intros (? & ? & ? & _); discriminate).
  - match goal with H : way _ _ _ _ |- _ => apply Hd in H as (D1 & D2 & D3 & D4) end. repeat split; try discriminate; try congruence. intros (? & ? & ? & _). discriminate.
  - match goal with H : way _ _ _ _ |- _ => apply Hd in H as (D1 & D2 & D3 & D4) end. repeat split; try discriminate; try congruence. intros (? & ? & ? & _). congruence.
Qed.
End Unique.

Section Plugin.
Context (P : platform) (ar : bool).
Hypothesis Hstrict : strict P = false.
Notation E := (pm_env P ar).
Notation no w := (EDone false w).
Notation regs := (pm_plugins ar).
Notation deeds := (deeds regs).

(** ** What the functions do *)
Definition slot (x : nat * str) : str * nat := (snd x, mid (fst x)).
Definition stock (tr : list event) (l : list (nat * str)) : Prop := exists pend, fold_left pm_event tr (None, []) = (pend, map slot l).
Definition pcol (b : bool) (e : event) : bool := match e with EvCall _ 4 _ => true | EvCall _ 5 _ => false | _ => b end.
Definition fits_in (d : shop) (w : world) : Prop :=
  w_root w = tree (p_paint d) (p_loaded d) /\ w_next w = mid (p_count d) /\ stock (w_trace w) (p_loaded d) /\ fine_list (p_count d) (p_loaded d).
Definition performed (d : shop) (e : deed) (w : world) (r : eres) : Prop :=
  match e with
  | Undefined => exists w' evs, r = EDone true w' /\ w_trace w' = w_trace w ++ evs /\ existsb (pm_undefined P) evs = true
  | _ => exists evs, r = EDone true (mkWorld (tree (p_paint (moved d e)) (p_loaded (moved d e))) (mid (p_count (moved d e))) (w_store w) (w_sid w)
             (match e with Go s => where_ s | _ => w_cur w end) (w_hist w) (w_exit w) (w_trace w ++ evs)) /\
      existsb (pm_undefined P) evs = false /\ pm_text evs = heard d e /\ (forall j, for_user j evs = if Nat.eqb (w_sid w) j then heard d e else []) /\
      stock (w_trace w ++ evs) (p_loaded (moved d e)) /\ (forall b, fold_left pcol evs b = match e with Paint on => on | _ => b end)
  end.
Section Scan.
Context (bi : hid -> list value -> world -> hres).
Lemma text_outs i l : pm_text (outs i l) = concat l.
Proof. induction l as [|s l IH]; [reflexivity|]. cbn [outs pm_text flat_map concat]. fold (pm_text (outs i l)). rewrite IH. reflexivity. Qed.
Lemma user_outs i l j : for_user j (outs i l) = if Nat.eqb i j then concat l else [].
Proof. apply to_outs. Qed.
Lemma undefined_outs i l : existsb (pm_undefined P) (outs i l) = false.
Proof. induction l as [|s l IH]; [reflexivity|]. exact IH. Qed.
Lemma event_outs i l s : fold_left pm_event (outs i l) s = s.
Proof. induction l as [|x l IH]; [reflexivity|]. cbn [outs fold_left]. destruct s as [[p|] y]; exact IH. Qed.
Lemma color_outs i l b : fold_left pcol (outs i l) b = b.
Proof. induction l as [|x l IH]; [reflexivity|]. exact IH. Qed.
Lemma stock_app tr l evs l' : stock tr l -> (forall pend, exists pend', fold_left pm_event evs (pend, map slot l) = (pend', map slot l')) -> stock (tr ++ evs) l'.
Proof. intros (pend & H) H'. destruct (H' pend) as (pend' & H2). exists pend'. rewrite fold_left_app, H. exact H2. Qed.

(** A function that prints [l]. *)
Lemma run_says d n args l t w : fits_in d w ->
  pm_handler ar (w_sid w) n args (w_trace w ++ [EvCall (w_sid w) n args]) = mkURes (map OOut l) UReturn ->
  (forall s, pm_event s (EvCall (w_sid w) n args) = (None, snd s)) -> (forall b, pcol b (EvCall (w_sid w) n args) = b) ->
  pm_undefined P (EvCall (w_sid w) n args) = false -> concat l = t ->
  performed d (Print t) w (run_fn E bi (HUser n) args w).
Proof.
  intros (Hr & Hn & Hst & Hfine) Hh He Hc Hu <-. exists (EvCall (w_sid w) n args :: outs (w_sid w) l). cbn [heard moved].
  split; [|split; [|split; [|split; [|split]]]].
  - unfold run_fn, call_user. cbn [e_handler pm_env log w_sid w_trace]. rewrite Hh. cbn [ur_ops ur_end]. rewrite apply_outs. unfold made, log. cbn.
    rewrite Hr, Hn, <- app_assoc. reflexivity.
  - cbn [existsb]. rewrite Hu. apply undefined_outs.
  - apply text_outs.
  - apply user_outs.
  - eapply stock_app; [exact Hst|]. intros pend. cbn [fold_left]. rewrite He, event_outs. eexists. reflexivity.
  - intros b. cbn [fold_left]. rewrite Hc. apply color_outs.
Qed.
Lemma run_ub d n args l w : pm_handler ar (w_sid w) n args (w_trace w ++ [EvCall (w_sid w) n args]) = mkURes (map OOut l) UReturn ->
  pm_undefined P (EvCall (w_sid w) n args) = true -> performed d Undefined w (run_fn E bi (HUser n) args w).
Proof.
  intros Hh Ho. unfold run_fn, call_user. cbn [e_handler pm_env log w_sid w_trace]. rewrite Hh. cbn [ur_ops ur_end]. rewrite apply_outs.
  eexists. exists (EvCall (w_sid w) n args :: outs (w_sid w) l). split; [reflexivity|]. split.
  - unfold made. cbn [w_trace log]. rewrite <- app_assoc. reflexivity.
  - cbn [existsb]. rewrite Ho. reflexivity.
Qed.
Lemma run_load d p w : fits_in d w -> known p -> performed d (Load p) w (run_fn E bi (HUser 2) [VStr p] w).
Proof.
  intros (Hr & Hn & Hst & Hfine) Hk. exists [EvCall (w_sid w) 2 [VStr p]; EvOut (w_sid w) (pm_hail p); EvInsert 10 (mid (p_count d))]. cbn [heard moved p_paint p_loaded p_count].
  split; [|split; [|split; [|split; [|split]]]].
  - unfold run_fn, call_user. cbn [e_handler pm_env pm_handler]. rewrite (proj2 (known_registered ar p) Hk).
    cbn [ur_ops ur_end apply_ops fold_left apply_op out log w_root w_next w_store w_sid w_cur w_hist w_exit w_trace]. rewrite Hn.
    rewrite (relabel_count (mid (p_count d)) p Hk). unfold set_root, out, log. cbn [w_root w_next w_store w_sid w_cur w_hist w_exit w_trace]. rewrite Hr.
    change (fst (relabel (mid (p_count d)) (pm_menu p))) with (plug (p_count d, p)). rewrite tree_insert by exact Hfine.
    replace (4 + mid (p_count d)) with (mid (S (p_count d))) by (unfold mid; lia). rewrite <- !app_assoc. reflexivity.
  - reflexivity.
  - cbn [pm_text flat_map]. rewrite !app_nil_r. reflexivity.
  - intros j. cbn [for_user flat_map app]. destruct (Nat.eqb (w_sid w) j); [rewrite !app_nil_r|]; reflexivity.
  - eapply stock_app; [exact Hst|]. intros pend. cbn [fold_left pm_event]. rewrite map_app. eexists. reflexivity.
  - reflexivity.
Qed.
Lemma run_load_no d p w : fits_in d w -> ~ known p -> performed d (Print []) w (run_fn E bi (HUser 2) [VStr p] w).
Proof.
  intros (Hr & Hn & Hst & Hfine) Hk. exists [EvCall (w_sid w) 2 [VStr p]]. cbn [heard moved p_paint p_loaded p_count].
  split; [|split; [|split; [|split; [|split]]]]; try reflexivity.
  - unfold run_fn, call_user. cbn [e_handler pm_env pm_handler]. destruct (existsb (str_eqb p) regs) eqn:Hx; [exfalso; apply Hk, (known_registered ar p), Hx|].
    cbn [ur_ops ur_end apply_ops fold_left]. unfold log. rewrite Hr, Hn. reflexivity.
  - intros j. cbn. destruct (Nat.eqb _ _); reflexivity.
  - eapply stock_app; [exact Hst|]. intros pend. cbn [fold_left pm_event]. eexists. reflexivity.
Qed.
Lemma fine_filter count f l : fine_list count l -> fine_list count (filter f l).
Proof.
  intros (A & B). split.
  - rewrite Forall_forall in *. intros x Hx. apply A. apply filter_In in Hx. apply Hx.
  - clear A. induction l as [|x l IH]; [constructor|]. inversion B as [|? ? Hx B']; subst. cbn [filter]. destruct (f x); [|apply IH, B'].
    cbn [map]. constructor; [|apply IH, B']. intros Hin. apply Hx. apply in_map_iff in Hin as (y & Hy & Hin). apply filter_In in Hin as (Hin & _). rewrite <- Hy. exact (in_map fst _ _ Hin).
Qed.
Lemma drop_all ms : forall d p w, w_root w = tree (p_paint d) (p_loaded d) -> fine_list (p_count d) (p_loaded d) ->
  apply_ops (flat_map (fun x => [ORemove (snd x); OOut (pm_part p)]) (map slot ms)) w =
  mkWorld (tree (p_paint d) (filter (fun x => negb (existsb (Nat.eqb (fst x)) (map fst ms))) (p_loaded d))) (w_next w) (w_store w) (w_sid w) (w_cur w) (w_hist w) (w_exit w)
    (w_trace w ++ outs (w_sid w) (map (fun _ => pm_part p) ms)).
Proof.
  induction ms as [|m ms IH]; intros d p w Hr Hf.
  - cbn [map flat_map apply_ops fold_left outs existsb negb]. rewrite app_nil_r.
    replace (filter (fun _ => true) (p_loaded d)) with (p_loaded d) by (clear; induction (p_loaded d) as [|x l IH]; cbn; congruence). rewrite <- Hr. destruct w; reflexivity.
  - cbn [map flat_map app]. unfold apply_ops. cbn [fold_left]. fold apply_ops.
    change (fold_left apply_op ?l ?x) with (apply_ops l x).
    set (d1 := mkShop (p_spot d) (without (fst m) (p_loaded d)) (p_count d) (p_paint d) (p_user d)).
    rewrite (IH d1).
    + cbn [p_paint p_loaded d1 apply_op out log set_root w_root w_next w_store w_sid w_cur w_hist w_exit w_trace outs map]. rewrite <- app_assoc. cbn [app].
      f_equal. f_equal. unfold without. clear. induction (p_loaded d) as [|x l IH]; [reflexivity|]. cbn [filter existsb]. destruct (Nat.eqb (fst x) (fst m)); cbn [negb orb filter]; [exact IH|].
      destruct (negb _); [f_equal|]; exact IH.
    + cbn [apply_op out log set_root w_root snd slot d1 p_paint p_loaded]. rewrite Hr. eapply tree_remove, Hf.
    + apply fine_filter, Hf.
Qed.
Lemma run_unload d p w : fits_in d w -> performed d (Unload p) w (run_fn E bi (HUser 3) [VStr p] w).
Proof.
  intros (Hr & Hn & Hst & Hfine). set (ms := filter (named p) (p_loaded d)).
  exists (EvCall (w_sid w) 3 [VStr p] :: outs (w_sid w) (map (fun _ => pm_part p) ms)). cbn [heard moved p_paint p_loaded p_count].
  assert (Hf : forall l : list (nat * str), filter (fun x => str_eqb (fst x) p) (map slot l) = map slot (filter (named p) l)).
  { induction l as [|x l IH]; [reflexivity|]. cbn [map filter slot fst]. rewrite named_eqb, IH. destruct (str_eqb (snd x) p); reflexivity. }
  assert (Hf' : forall l : list (nat * str), filter (fun x => negb (str_eqb (fst x) p)) (map slot l) = map slot (filter (fun x => negb (named p x)) l)).
  { induction l as [|x l IH]; [reflexivity|]. cbn [map filter slot fst]. rewrite named_eqb, IH. destruct (str_eqb (snd x) p); reflexivity. }
  assert (Ht : concat (map (fun _ : nat * str => pm_part p) ms) = concat (map part (map snd ms))).
  { rewrite map_map. f_equal. apply map_ext_in. intros x Hx. apply filter_In in Hx as (_ & Hx). rewrite named_eqb in Hx. apply str_eqb_eq in Hx. rewrite Hx. reflexivity. }
  split; [|split; [|split; [|split; [|split]]]].
  - unfold run_fn, call_user. cbn [e_handler pm_env pm_handler log w_trace]. rewrite removelast_last. unfold pm_loaded. destruct Hst as (pend & ->). cbn [snd ur_ops ur_end]. rewrite Hf.
    rewrite (drop_all _ d); [|exact Hr|exact Hfine]. cbn [log w_root w_next w_store w_sid w_cur w_hist w_exit w_trace]. rewrite Hn, <- app_assoc. cbn [app].
    do 2 f_equal. fold ms. f_equal. apply filter_ext_in. intros x Hx. f_equal.
    destruct (named p x) eqn:En.
    + apply existsb_exists. exists (fst x). split; [|apply Nat.eqb_refl]. apply in_map, filter_In. auto.
    + apply not_true_iff_false. intros He. apply existsb_exists in He as (n & Hin & He). apply Nat.eqb_eq in He. subst n.
      apply in_map_iff in Hin as (y & Hy & Hin). apply filter_In in Hin as (Hin & Hp). destruct Hfine as (_ & Hd).
      destruct x as [n q], y as [n' q']. cbn in Hy. subst n'. pose proof (find_in _ _ _ Hd Hx) as E1. pose proof (find_in _ _ _ Hd Hin) as E2. congruence.
  - exact (undefined_outs _ _).
  - change (pm_text (outs (w_sid w) (map (fun _ : nat * str => pm_part p) ms)) = concat (map part (map snd ms))). rewrite text_outs. exact Ht.
  - intros j. fold ms. change (for_user j (outs (w_sid w) (map (fun _ : nat * str => pm_part p) ms)) = if Nat.eqb (w_sid w) j then concat (map part (map snd ms)) else []). rewrite user_outs, Ht. reflexivity.
  - eapply stock_app; [exact Hst|]. intros pend. cbn [fold_left pm_event]. rewrite event_outs, Hf'. eexists. reflexivity.
  - intros b. cbn [fold_left pcol]. apply color_outs.
Qed.
Lemma run_paint d on w : fits_in d w -> performed d (Paint on) w (run_fn E bi (HUser (if on then 4 else 5)) [] w).
Proof.
  intros (Hr & Hn & Hst & Hfine). exists [EvCall (w_sid w) (if on then 4 else 5) []; EvOut (w_sid w) (if on then lit "Colors ON" ++ nl else lit "Colors OFF" ++ nl)].
  cbn [heard moved p_paint p_loaded p_count].
  split; [|split; [|split; [|split; [|split]]]].
  - destruct on; unfold run_fn, call_user; cbn [e_handler pm_env pm_handler ur_ops ur_end apply_ops fold_left apply_op];
      unfold set_root, out, log; cbn [w_root w_next w_store w_sid w_cur w_hist w_exit w_trace]; rewrite Hr, Hn, <- app_assoc;
      [rewrite (tree_color _ _ _ Hfine)|rewrite (tree_nocolor _ _ _ Hfine)]; reflexivity.
  - destruct on; reflexivity.
  - destruct on; cbn [pm_text flat_map app]; rewrite !app_nil_r; reflexivity.
  - intros j. destruct on; cbn [for_user flat_map app]; (destruct (Nat.eqb (w_sid w) j); [rewrite app_nil_r|]; reflexivity).
  - eapply stock_app; [exact Hst|]. intros pend. destruct on; cbn [fold_left pm_event]; eexists; reflexivity.
  - destruct on; reflexivity.
Qed.
Lemma run_go d s w : fits_in d w -> performed d (Go s) w (EDone true (set_cur (where_ s) w)).
Proof.
  intros (Hr & Hn & Hst & Hfine). exists []. cbn [heard moved p_paint p_loaded p_count]. rewrite app_nil_r.
  split; [unfold set_cur; rewrite Hr, Hn; reflexivity|]. repeat split; try reflexivity; [intros j; destruct (Nat.eqb _ _); reflexivity|exact Hst].
Qed.

(** ** All words in all places *)
Definition outcome (d : shop) (p : spot) (ws : list str) (w : world) (r : eres) : Prop :=
  (exists e, deeds d p ws e /\ performed d e w r) \/ ((forall e, ~ deeds d p ws e) /\ r = no w).
Lemma int_read r : readable P r -> (exists v, int_from_string P Int r = COk v /\ int_text Int r v) \/
  (int_from_string P Int r = CBad /\ forall v, ~ int_text Int r v).
Proof.
  intros Hr. destruct (int_types P Int r Hr (or_introl Hstrict)) as (Hi & Hub).
  destruct (int_from_string P Int r) as [v| |] eqn:Hc; [|right|congruence].
  - left. exists v. split; [reflexivity|]. apply Hi. reflexivity.
  - split; [reflexivity|]. intros v Hv. apply Hi in Hv. discriminate.
Qed.
Lemma deeds_some d p e : ~ deeds d p [] e.
Proof. intros H. inversion H. Qed.
Definition chain (d : shop) (x : nat * str) : list cmd := [plug x; tree (p_paint d) (p_loaded d)].
Lemma performed_done d e w r : performed d e w r -> exists w', r = EDone true w'.
Proof. destruct e; [intros (evs & -> & _); eexists; reflexivity..|]. intros (w' & evs & -> & _). eexists. reflexivity. Qed.
Lemma performed_on d e w r f : performed d e w r -> performed d e w (e_bind r f).
Proof. intros H. destruct (performed_done _ _ _ _ H) as (w' & ->). exact H. Qed.

Lemma plugs_none t n l count : fine_list count l -> ~ known t -> filter (could t n) (map plug l) = [].
Proof.
  intros (H & _) Hk. apply none_meant, Forall_map. eapply Forall_impl; [|exact H]. intros [m p] (_ & Hp). cbn [snd] in Hp.
  destruct (str_eqb (cmd_name (plug (m, p))) t) eqn:Hx; [|reflexivity]. apply str_eqb_eq in Hx. exfalso. apply Hk. rewrite <- Hx.
  destruct Hp as [-> | ->]; [left|right]; reflexivity.
Qed.
Lemma plugs_some t n l count : fine_list count l -> filter (could t n) (map plug l) = map plug (filter (named t) l).
Proof.
  intros (H & _). induction H as [|[m p] l (_ & Hp) _ IH]; [reflexivity|]. cbn [map filter]. rewrite named_eqb, IH. cbn [snd] in *.
  destruct Hp as [-> | ->]; [rewrite plug_arith|rewrite plug_strings]; cbn [could andb]; destruct (str_eqb _ t); reflexivity.
Qed.
Lemma deeds_twin d n n' p ws e : names_ok d -> In (n, p) (p_loaded d) -> In (n', p) (p_loaded d) -> deeds d (Within n) ws e -> deeds d (Within n') ws e.
Proof.
  intros Hok Hn Hn' H. assert (Hi : forall q, inside d n q -> inside d n' q).
  { intros q Hq. unfold inside in *. rewrite <- (inside_unique d n _ _ Hok Hn Hq). exact Hn'. }
  inversion H; subst;
    try (match goal with H : way _ _ _ _ |- _ => inversion H; subst end; first [apply d_enter; constructor|eapply d_through; [constructor|eassumption]]);
    match goal with H : inside d n _ |- _ => apply Hi in H end; econstructor; eassumption.
Qed.
Lemma fits_names d w : fits_in d w -> names_ok d.
Proof. intros (_ & _ & _ & A & B). split; [|exact B]. eapply Forall_impl; [|exact A]. intros x (_ & H). exact H. Qed.
Lemma plug_menu x : known (snd x) -> exists ks, plug x = CMenu (mid (fst x)) (snd x) true (lit "Enter the " ++ snd x ++ lit " plugin menu") (snd x) ks.
Proof. destruct x as [n p]. intros [H|H]; cbn [snd] in H; subst p; eexists; reflexivity. Qed.
Lemma tree_unfold d : tree (p_paint d) (p_loaded d) = CMenu 10 (lit "cli") true (lit "(menu)") (lit "cli") (base (p_paint d) ++ map plug (p_loaded d)).
Proof. reflexivity. Qed.
(** Entering a plugin; of the plugins with the same name only the oldest does anything. *)
Lemma enter_plug d t rest w : fits_in d w ->
  (forall x, In x (p_loaded d) -> rest <> [] -> outcome d (Within (fst x)) rest w (scan E bi rest (chain d x) w)) ->
  (forall e, deeds d Home (t :: rest) e -> (exists q, way d Home t q /\ ((rest = [] /\ e = Go q) \/ deeds d q rest e))) ->
  outcome d Home (t :: rest) w (try_all (exec E bi (t :: rest) [tree (p_paint d) (p_loaded d)]) (map plug (filter (named t) (p_loaded d))) w).
Proof.
  intros Hf IH Honly. pose proof (fits_names _ _ Hf) as Hok.
  assert (Hex : forall x, In x (p_loaded d) -> snd x = t -> exec E bi (t :: rest) [tree (p_paint d) (p_loaded d)] (plug x) w =
    match rest with [] => EDone true (set_cur (mid (fst x)) w) | _ => scan E bi rest (chain d x) w end).
  { intros x Hx Ht. destruct Hok as (Hk & _). rewrite Forall_forall in Hk. specialize (Hk _ Hx). destruct (plug_menu x Hk) as (ks & Hp). unfold chain. rewrite Hp. cbn [exec].
    rewrite menu_meant, Ht, str_eqb_refl. cbn [orb]. rewrite tree_unfold. reflexivity. }
  destruct (filter (named t) (p_loaded d)) as [|x more] eqn:Hfil.
  - right. split; [|reflexivity]. intros e He. destruct (Honly e He) as (q & Hw & _). apply none_named in Hfil. apply Hfil.
    inversion Hw as [l1 n ? l2 Hl Hb| |]; subst. rewrite Hl, map_app. apply in_or_app. right. left. reflexivity.
  - assert (Hins : forall y, In y (x :: more) -> In y (p_loaded d) /\ snd y = t).
    { intros y Hy. rewrite <- Hfil in Hy. apply filter_In in Hy as (A & B). rewrite named_eqb in B. apply str_eqb_eq in B. auto. }
    destruct (first_named _ _ _ _ Hfil) as (Hx & l1 & l2 & Hl & Hb & _). destruct (Hins x (or_introl eq_refl)) as (Hinx & _).
    assert (Hway : way d Home t (Within (fst x))) by (econstructor; eassumption).
    destruct rest as [|r rest].
    + left. exists (Go (Within (fst x))). split; [apply d_enter, Hway|]. cbn [map try_all]. rewrite Hex by assumption. apply run_go, Hf.
    + destruct (IH x Hinx ltac:(discriminate)) as [(e & He & Hp)|(Hno & Hr)].
      * left. exists e. split; [eapply d_through; eassumption|]. cbn [map try_all]. rewrite Hex by assumption. destruct (performed_done _ _ _ _ Hp) as (w' & Hw').
        rewrite Hw' in *. exact Hp.
      * right. split.
        -- intros e He. destruct (Honly e He) as (q & Hw & [(? & _)|H]); [discriminate|]. rewrite (way_unique d _ _ _ _ Hw Hway) in H. exact (Hno e H).
        -- assert (Hall : Forall (fun y => exec E bi (t :: r :: rest) [tree (p_paint d) (p_loaded d)] (plug y) w = no w) (x :: more)).
           { apply Forall_forall. intros y Hy. destruct (Hins y Hy) as (Hiny & Hty). rewrite Hex by assumption.
             destruct (IH y Hiny ltac:(discriminate)) as [(e & He & _)|(_ & Hr')]; [|exact Hr']. exfalso. apply (Hno e).
             destruct x as [nx px], y as [ny py]. cbn [fst snd] in *. subst px py. eapply deeds_twin; [exact Hok|exact Hiny|exact Hinx|exact He]. }
           clear - Hall. induction Hall as [|y l Hy _ IH]; [reflexivity|]. cbn [map try_all]. rewrite Hy. exact IH.
Qed.
Lemma home_base t n d w : fits_in d w -> ~ known t -> filter (could t n) (base (p_paint d) ++ map plug (p_loaded d)) = filter (could t n) (base (p_paint d)).
Proof. intros (_ & _ & _ & Hf) Hk. rewrite filter_app, (plugs_none _ _ _ _ Hf Hk), app_nil_r. reflexivity. Qed.
Ltac unknown := let H := fresh in intros [H|H]; discriminate H.
Ltac home_one k Hf := rewrite tree_unfold; rewrite (scan_sole _ _ _ _ _ _ _ _ _ _ k); [rewrite bind_not by reflexivity; rewrite exec_meant by reflexivity; cbn [convert_all convert e_plat e_custom pm_env cmap cbind]|
  rewrite (home_base _ _ _ _ Hf) by unknown; destruct (p_paint _) as [[]|]; try congruence; compute_filter].
Ltac home_none Hf := rewrite tree_unfold; rewrite scan_nothing; [|rewrite (home_base _ _ _ _ Hf) by unknown; destruct (p_paint _) as [[]|]; try congruence; compute_filter].
Ltac refuse Hok := right; split; [|reflexivity]; let HD := fresh in intros ? HD; inversion HD; subst;
  try discriminate; try congruence; try (eapply deeds_some; eassumption);
  repeat match goal with
  | H : str_eqb _ _ = false |- _ => vm_compute in H
  | H : way _ Home _ _ |- _ => apply (way_home _ _ _ Hok) in H; destruct H as [H|H]
  | H : way _ (Within _) _ _ |- _ => inversion H; subst; clear H
  end; try discriminate; try congruence.
Ltac says n args l := apply (run_says _ n args l);
  [assumption|reflexivity|intros [? ?]; reflexivity|reflexivity|reflexivity|cbn [concat]; rewrite ?app_nil_r; rewrite <- ?app_assoc; try reflexivity].
Lemma names_out l : pm_names l = map OOut (map item l).
Proof. unfold pm_names. rewrite map_map. reflexivity. Qed.
Lemma home_scan d t rest w : fits_in d w ->
  (forall x, In x (p_loaded d) -> rest <> [] -> outcome d (Within (fst x)) rest w (scan E bi rest (chain d x) w)) ->
  outcome d Home (t :: rest) w (scan E bi (t :: rest) [tree (p_paint d) (p_loaded d)] w).
Proof.
  intros Hf IH. pose proof (fits_names _ _ Hf) as Hok.
  name t "list"%string.
  { destruct rest as [|r rest]; [|home_none Hf; refuse Hok].
    home_one (CFn 11 (lit "list") true (lit "Print the plugin list") [] [] (HUser 0)) Hf.
    left. eexists. split; [apply d_list|]. apply (run_says _ 0 [] (map item regs)); [exact Hf| |intros [? ?]; reflexivity|reflexivity..]. cbn [pm_handler]. rewrite names_out. reflexivity. }
  name t "loaded"%string.
  { destruct rest as [|r rest]; [|home_none Hf; refuse Hok].
    home_one (CFn 12 (lit "loaded") true (lit "Load the plugin specified") [] [] (HUser 1)) Hf.
    left. eexists. split; [apply d_loaded|]. apply (run_says _ 1 [] (map item (map snd (p_loaded d)))); [exact Hf| |intros [? ?]; reflexivity|reflexivity..]. cbn [pm_handler]. rewrite names_out.
    unfold pm_loaded. rewrite fold_left_app. destruct Hf as (_ & _ & (pend & ->) & _). cbn [fold_left pm_event snd]. rewrite !map_map. reflexivity. }
  name t "load"%string.
  { destruct rest as [|r [|r' rest]]; [home_none Hf; refuse Hok| |home_none Hf; refuse Hok].
    home_one (CFn 13 (lit "load") true (lit "Load the plugin specified") [PString] [lit "plugin_name"] (HUser 2)) Hf.
    left. destruct (known_dec r) as [Hk|Hk]; eexists.
    - split; [apply d_load, Hk|]. apply run_load; assumption.
    - split; [apply d_load_no, Hk|]. apply run_load_no; assumption. }
  name t "unload"%string.
  { destruct rest as [|r [|r' rest]]; [home_none Hf; refuse Hok| |home_none Hf; refuse Hok].
    home_one (CFn 14 (lit "unload") true (lit "Unload the plugin specified") [PString] [lit "plugin_name"] (HUser 3)) Hf.
    left. eexists. split; [apply d_unload|]. apply run_unload. assumption. }
  name t "color"%string.
  { destruct rest as [|r rest]; [|home_none Hf; refuse Hok].
    assert (Hp : p_paint d = Some true \/ p_paint d <> Some true) by (destruct (p_paint d) as [[]|]; [left|right..]; congruence).
    destruct Hp as [Hp|Hp]; [home_none Hf; refuse Hok|].
    home_one (CFn 15 (lit "color") true (lit "Enable colors in the cli") [] [] (HUser 4)) Hf.
    left. eexists. split; [apply d_color, Hp|]. exact (run_paint d true w Hf). }
  name t "nocolor"%string.
  { destruct rest as [|r rest]; [|home_none Hf; refuse Hok].
    assert (Hp : p_paint d = Some false \/ p_paint d <> Some false) by (destruct (p_paint d) as [[]|]; [right|left|right]; congruence).
    destruct Hp as [Hp|Hp]; [home_none Hf; refuse Hok|].
    home_one (CFn 16 (lit "nocolor") true (lit "Disable colors in the cli") [] [] (HUser 5)) Hf.
    left. eexists. split; [apply d_nocolor, Hp|]. exact (run_paint d false w Hf). }
  rewrite tree_unfold, scan_meant, bind_not by reflexivity. rewrite filter_app, (none_meant t (length rest) (base (p_paint d))) by (unfold base; not_named). cbn [app].
  destruct Hf as (A & B & C & Hfine). rewrite (plugs_some _ _ _ _ Hfine), <- tree_unfold. apply enter_plug; [exact (conj A (conj B (conj C Hfine)))|exact IH|].
  intros e He. inversion He; subst; try (repeat match goal with H : str_eqb _ _ = false |- _ => vm_compute in H end; congruence).
  - exists q. split; [assumption|]. left. auto.
  - exists q. split; [assumption|]. right. assumption.
Qed.
Lemma to_home d n t rest w : fits_in d w -> In n (map fst (p_loaded d)) -> t = lit "cli" \/ t = lit ".." ->
  (rest <> [] -> outcome d Home rest w (scan E bi rest [tree (p_paint d) (p_loaded d)] w)) ->
  outcome d (Within n) (t :: rest) w (handle E bi (t :: rest) true [tree (p_paint d) (p_loaded d)] w).
Proof.
  intros Hf Hn Ht IH. assert (Hw : way d (Within n) t Home) by (destruct Ht as [-> | ->]; constructor).
  rewrite tree_unfold, menu_meant, <- tree_unfold.
  assert (str_eqb (lit "cli") t || (true && str_eqb (lit "..") t) = true) as -> by (destruct Ht as [-> | ->]; reflexivity).
  destruct rest as [|r rest].
  - left. exists (Go Home). split; [apply d_enter, Hw|]. apply run_go, Hf.
  - destruct IH as [(e & He & Hp)|(Hno & ->)]; [discriminate| |].
    + left. exists e. split; [eapply d_through; eassumption|exact Hp].
    + right. split; [|reflexivity]. intros e He. inversion He; subst; try (destruct Ht; discriminate).
      match goal with H : way _ _ _ ?q |- _ => assert (q = Home) by (inversion H; reflexivity) end. subst q. eapply Hno. eassumption.
Qed.
Lemma up_not d t rest w : str_eqb (lit "cli") t = false -> str_eqb (lit "..") t = false ->
  handle E bi (t :: rest) true [tree (p_paint d) (p_loaded d)] w = no w.
Proof. intros A B. rewrite tree_unfold, menu_meant, A, B. reflexivity. Qed.
Ltac in_one k := rewrite (scan_sole _ _ _ _ _ _ _ _ _ _ k) by compute_filter; rewrite bind_not by (intros; apply up_not; reflexivity);
  try (rewrite exec_meant by reflexivity; cbn [convert_all convert e_plat e_custom pm_env cmap cbind]);
  repeat match goal with H : Forall _ (_ :: _) |- _ => inversion H; subst; clear H end.
Ltac in_none := rewrite scan_nothing by compute_filter; rewrite up_not by reflexivity.
Ltac reads Hok r := let v := fresh "v" in let Hv := fresh "Hv" in
  destruct (int_read r) as [(v & -> & Hv)|(-> & Hv)]; [assumption|cbn [convert_all convert e_plat e_custom pm_env cmap cbind]|
    cbn [convert_all convert e_plat e_custom pm_env cmap cbind]; refuse Hok; eapply Hv; eassumption].
Lemma arith_scan d n t rest w : fits_in d w -> In (n, lit "arithmetic") (p_loaded d) -> Forall (readable P) rest ->
  (rest <> [] -> outcome d Home rest w (scan E bi rest [tree (p_paint d) (p_loaded d)] w)) ->
  outcome d (Within n) (t :: rest) w (scan E bi (t :: rest) [plug (n, lit "arithmetic"); tree (p_paint d) (p_loaded d)] w).
Proof.
  intros Hf Hin Hrest IH. pose proof (fits_names _ _ Hf) as Hok.
  assert (Hother : forall q, inside d n q -> lit q = lit "arithmetic") by (intros q Hq; exact (inside_unique d n _ _ Hok Hq Hin)).
  assert (Hnot : ~ inside d n "strings") by (intros Hq; discriminate (Hother _ Hq)). clear Hother.
  rewrite plug_arith. unfold arith_kids.
  name t "cli"%string.
  { rewrite scan_nothing by compute_filter. apply to_home; auto. exact (in_map fst _ _ Hin). }
  name t ".."%string.
  { rewrite scan_nothing by compute_filter. apply to_home; auto. exact (in_map fst _ _ Hin). }
  name t "add"%string.
  { destruct rest as [|r [|r' [|r'' [|r3 rest]]]]; [in_none; refuse Hok|in_none; refuse Hok| | |in_none; refuse Hok].
    - in_one (CFn (1 + mid n) (lit "add") true (lit "Print the sum of the two numbers") [PInt Int; PInt Int] [lit "first_term"; lit "second_term"] (HUser 6)).
      reads Hok r. reads Hok r'. destruct (is_int (v + v0)) eqn:Hi; left; eexists.
      + split; [eapply d_add; [exact Hin|exact Hv|exact Hv0|apply is_int_fits, Hi]|].
        apply (run_says d 6 [VInt v; VInt v0] [print_int v; lit " + "; print_int v0; lit " = "; print_int (v + v0); nl]);
          [exact Hf|reflexivity|intros [? ?]; reflexivity|reflexivity|cbn [pm_undefined]; rewrite Hi; reflexivity|cbn [concat]; rewrite app_nil_r; reflexivity].
      + split; [eapply d_add_ub; [exact Hin|exact Hv|exact Hv0|rewrite <- is_int_fits; congruence]|].
        apply (run_ub d 6 [VInt v; VInt v0] [print_int v; lit " + "; print_int v0; lit " = "; print_int (v + v0); nl]); [reflexivity|cbn [pm_undefined]; rewrite Hi; reflexivity].
    - in_one (CFn (2 + mid n) (lit "add") true (lit "Print the sum of the three numbers") [PInt Int; PInt Int; PInt Int] [] (HUser 7)).
      reads Hok r. reads Hok r'. reads Hok r''. destruct (is_int (v + v0) && is_int (v + v0 + v1)) eqn:Hi; left; eexists.
      + pose proof (andb_prop _ _ Hi) as (Hi1 & Hi2).
        split; [eapply d_add3; [exact Hin|exact Hv|exact Hv0|exact Hv1|apply is_int_fits, Hi1|apply is_int_fits, Hi2]|].
        apply (run_says d 7 [VInt v; VInt v0; VInt v1] [print_int v; lit " + "; print_int v0; lit " + "; print_int v1; lit " = "; print_int (v + v0 + v1); nl]);
          [exact Hf|reflexivity|intros [? ?]; reflexivity|reflexivity|cbn [pm_undefined]; rewrite Hi; reflexivity|cbn [concat]; rewrite app_nil_r; reflexivity].
      + split; [eapply d_add3_ub; [exact Hin|exact Hv|exact Hv0|exact Hv1|]|].
        * rewrite <- !is_int_fits. intros (A & B). rewrite A, B in Hi. discriminate.
        * apply (run_ub d 7 [VInt v; VInt v0; VInt v1] [print_int v; lit " + "; print_int v0; lit " + "; print_int v1; lit " = "; print_int (v + v0 + v1); nl]);
            [reflexivity|cbn [pm_undefined]; rewrite Hi; reflexivity]. }
  name t "sub"%string.
  { destruct rest as [|r [|r' [|r'' rest]]]; [in_none; refuse Hok|in_none; refuse Hok| |in_none; refuse Hok].
    in_one (CFn (3 + mid n) (lit "sub") true (lit "Print the result of a subtraction") [PInt Int; PInt Int] [lit "subtrahend"; lit "minuend"] (HUser 8)).
    reads Hok r. reads Hok r'. destruct (is_int (v - v0)) eqn:Hi; left; eexists.
    + split; [eapply d_sub; [exact Hin|exact Hv|exact Hv0|apply is_int_fits, Hi]|].
      apply (run_says d 8 [VInt v; VInt v0] [print_int v; lit " - "; print_int v0; lit " = "; print_int (v - v0); nl]);
        [exact Hf|reflexivity|intros [? ?]; reflexivity|reflexivity|cbn [pm_undefined]; rewrite Hi; reflexivity|cbn [concat]; rewrite app_nil_r; reflexivity].
    + split; [eapply d_sub_ub; [exact Hin|exact Hv|exact Hv0|rewrite <- is_int_fits; congruence]|].
      apply (run_ub d 8 [VInt v; VInt v0] [print_int v; lit " - "; print_int v0; lit " = "; print_int (v - v0); nl]); [reflexivity|cbn [pm_undefined]; rewrite Hi; reflexivity]. }
  rewrite scan_nothing by (apply none_meant; not_named). rewrite up_not by assumption. refuse Hok.
Qed.
Lemma strings_scan d n t rest w : fits_in d w -> In (n, lit "strings") (p_loaded d) -> Forall (readable P) rest ->
  (rest <> [] -> outcome d Home rest w (scan E bi rest [tree (p_paint d) (p_loaded d)] w)) ->
  outcome d (Within n) (t :: rest) w (scan E bi (t :: rest) [plug (n, lit "strings"); tree (p_paint d) (p_loaded d)] w).
Proof.
  intros Hf Hin Hrest IH. pose proof (fits_names _ _ Hf) as Hok.
  assert (Hother : forall q, inside d n q -> lit q = lit "strings") by (intros q Hq; exact (inside_unique d n _ _ Hok Hq Hin)).
  assert (Hnot : ~ inside d n "arithmetic") by (intros Hq; discriminate (Hother _ Hq)). clear Hother.
  rewrite plug_strings. unfold string_kids.
  name t "cli"%string.
  { rewrite scan_nothing by compute_filter. apply to_home; auto. exact (in_map fst _ _ Hin). }
  name t ".."%string.
  { rewrite scan_nothing by compute_filter. apply to_home; auto. exact (in_map fst _ _ Hin). }
  name t "reverse"%string.
  { destruct rest as [|r [|r' rest]]; [in_none; refuse Hok| |in_none; refuse Hok].
    in_one (CFn (1 + mid n) (lit "reverse") true (lit "Print the reverse string") [PString] [lit "string_to_revert"] (HUser 9)).
    left. eexists. split; [apply d_reverse, Hin|]. says 9 [VStr r] [rev r; nl]. }
  name t "upper"%string.
  { destruct rest as [|r [|r' rest]]; [in_none; refuse Hok| |in_none; refuse Hok].
    in_one (CFn (2 + mid n) (lit "upper") true (lit "Print the string in uppercase") [PString] [] (HUser 10)).
    left. eexists. split; [eapply d_upper; [exact Hin|apply uppers]|].
    apply (run_says d 10 [VStr r] [map upper_char r; nl]); [exact Hf|reflexivity|intros [? ?]; reflexivity|reflexivity| |cbn [concat]; rewrite app_nil_r; reflexivity].
    cbn [pm_undefined]. match goal with H : readable P r |- _ => apply readable_safe in H end. apply negb_false_iff, forallb_forall. apply Forall_forall. assumption. }
  name t "sort"%string.
  { in_one (CFree (3 + mid n) (lit "sort") true (lit "Alphabetically sort a list of words") [lit "list of strings separated by space"] (HUser 11)).
    left. eexists. split; [apply (d_sort _ _ _ _ (sort rest)); [exact Hin|apply sort_perm|apply sort_ordered]|].
    cbn [exec exec_leaf negb]. rewrite str_eqb_refl. change (run_free E (HUser 11) rest w) with (run_fn E bi (HUser 11) [VList rest] w).
    apply (run_says d 11 [VList rest] ([lit "sorted list: "] ++ map (fun s => s ++ lit " ") (sort rest) ++ [nl]));
      [exact Hf|reflexivity|intros [? ?]; reflexivity|reflexivity|reflexivity|]. rewrite !concat_app. cbn [concat]. rewrite !app_nil_r. reflexivity. }
  rewrite scan_nothing by (apply none_meant; not_named). rewrite up_not by assumption. refuse Hok.
Qed.
Lemma all_scan ws : ws <> [] -> Forall (readable P) ws -> forall d w, fits_in d w ->
  outcome d Home ws w (scan E bi ws [tree (p_paint d) (p_loaded d)] w) /\
  forall x, In x (p_loaded d) -> outcome d (Within (fst x)) ws w (scan E bi ws (chain d x) w).
Proof.
  induction ws as [|t rest IH]; [congruence|]. intros _ Hws d w Hf. inversion Hws as [|? ? Ht Hrest]; subst. split.
  - apply home_scan; [exact Hf|]. intros x Hx Hne. apply IH; assumption.
  - intros [n p] Hx. assert (Hk : known p).
    { destruct (fits_names _ _ Hf) as (Hk & _). rewrite Forall_forall in Hk. exact (Hk _ Hx). }
    cbn [fst]. unfold chain. destruct Hk as [-> | ->]; [apply arith_scan|apply strings_scan]; try assumption; intros Hne; apply IH; assumption.
Qed.
Lemma spot_scan d ws w x : ws <> [] -> Forall (readable P) ws -> fits_in d w -> w_cur w = where_ (p_spot d) -> (p_spot d = Home \/ p_spot d = Within (fst x) /\ In x (p_loaded d)) ->
  exists cx, locate (w_cur w) [] (w_root w) = Some cx /\ outcome d (p_spot d) ws w (scan E bi ws cx w).
Proof.
  intros Hne Hws Hf Hcur Hs. destruct (all_scan ws Hne Hws d w Hf) as (A & B). destruct Hf as (Hr & Hn & Hst & Hfine).
  rewrite Hr, Hcur. destruct Hs as [Hs|(Hs & Hx)]; rewrite Hs.
  - eexists. split; [reflexivity|exact A].
  - exists (chain d x). split; [|apply B, Hx]. cbn [where_]. rewrite (tree_locate _ _ _ _ Hfine). destruct x as [n p]. cbn [fst] in *.
    destruct Hfine as (_ & Hd). rewrite (find_in _ _ _ Hd Hx). reflexivity.
Qed.
End Scan.

(** ** Lines *)
Notation size := 200.
Definition fine_user (u : user) : Prop := length (u_lines u) <= size /\ (0 <= u_first u)%Z /\ Forall (fun l => readable P l /\ ~ recalls l) (u_lines u).
Definition like (d : shop) (w : world) : Prop :=
  fits_in d w /\ w_cur w = where_ (p_spot d) /\ w_hist w = hist_of size (p_user d) /\ pm_color (w_trace w) = painted d /\ w_exit w = false /\ stands d /\ fine_user (p_user d).
Definition lined (d : shop) (line : str) (w : world) (r : fres) : Prop :=
  exists rep, answers regs d line rep /\
  match rep with
  | Broken => r = FUB \/ exists w' evs, r = FOk w' /\ w_trace w' = w_trace w ++ evs /\
      (existsb (pm_undefined P) evs = true \/ existsb (pm_undefined P) evs = false /\ w_exit w' = false /\ locate (w_cur w') [] (w_root w') = None)
  | Reply text d' lf => exists w' evs, r = FOk w' /\ w_trace w' = w_trace w ++ evs /\ existsb (pm_undefined P) evs = false /\ w_exit w' = lf /\
      if lf then text = pm_text evs ++ concat (map part (map snd (p_loaded d'))) /\ stock (w_trace w') (p_loaded d')
      else text = pm_text evs /\ like d' w'
  end.
Lemma keeps_fine line u : fine_user u -> readable P line -> ~ recalls line -> fine_user (keeps size line u).
Proof.
  intros (A & B & C) H1 H2. unfold keeps. destruct (rev (u_lines u)) as [|last r] eqn:Hr; [split; [cbn; lia|]; split; [exact B|]|].
  - constructor; [split; assumption|constructor].
  - destruct (list_eq_dec ascii_dec last line); [split; [exact A|]; split; [exact B|exact C]|].
    destruct (Nat.ltb_spec size (S (length (u_lines u)))).
    + split; [cbn [u_lines]; rewrite app_length, tl_len; cbn [length]; lia|]. split; [cbn [u_first]; lia|]. apply Forall_app. split; [|constructor; [split; assumption|constructor]].
      destruct (u_lines u); [constructor|]. inversion C; assumption.
    + split; [cbn [u_lines]; rewrite app_length; cbn [length]; lia|]. split; [exact B|]. apply Forall_app. split; [exact C|constructor; [split; assumption|constructor]].
Qed.
Lemma forgets_fine line u : fine_user u -> fine_user (forgets size line u).
Proof.
  intros (A & B & C). unfold forgets, keeps. destruct (rev (u_lines u)) as [|last r] eqn:Er; [split; [cbn; lia|]; split; [exact B|constructor]|].
  destruct (list_eq_dec ascii_dec last line) as [->|].
  - unfold fine_user. cbn [u_lines u_first]. split; [rewrite removelast_len; lia|]. split; [exact B|apply Forall_removelast, C].
  - destruct (Nat.ltb_spec size (S (length (u_lines u)))); unfold fine_user; cbn [u_lines u_first]; rewrite removelast_last.
    + split; [rewrite tl_len; lia|]. split; [lia|]. destruct (u_lines u); [constructor|]. inversion C; assumption.
    + auto.
Qed.
Lemma hook_says k l w : pm_hook (w_sid w) k [] (w_trace w ++ [EvHook (w_sid w) k []]) = mkURes (map OOut l) UReturn ->
  run_hook E k [] w = HOk (made (w_root w) (w_cur w) (EvHook (w_sid w) k [] :: outs (w_sid w) l) w).
Proof.
  intros H. unfold run_hook. change (w_sid (log (EvHook (w_sid w) k []) w)) with (w_sid w). change (w_trace (log (EvHook (w_sid w) k []) w)) with (w_trace w ++ [EvHook (w_sid w) k []]).
  change (e_hook E) with pm_hook. rewrite H. cbn [ur_ops ur_end]. rewrite apply_outs. unfold made, log. cbn. rewrite <- app_assoc. reflexivity.
Qed.
Lemma deeds_load d p ws e : deeds d p ws e -> forall q, e = Load q -> known q.
Proof. induction 1; intros q0 Hz; try discriminate; [injection Hz as <-; assumption|]. apply IHdeeds, Hz. Qed.
Lemma moved_fine d e : fine_list (p_count d) (p_loaded d) -> (forall q, e = Load q -> known q) -> fine_list (p_count (moved d e)) (p_loaded (moved d e)).
Proof.
  intros (A & B) Hk. destruct e as [t|p|p|on|s|]; cbn [moved p_count p_loaded]; try (split; assumption).
  - split.
    + apply Forall_app. split; [eapply Forall_impl; [|exact A]; intros x (Hx & Hx'); split; [lia|exact Hx']|]. constructor; [|constructor]. split; [cbn; lia|]. apply Hk. reflexivity.
    + rewrite map_app. cbn [map fst]. apply NoDup_Add with (a := p_count d) (l := map fst (p_loaded d)).
      * rewrite <- (app_nil_r (map fst (p_loaded d))) at 1. apply Add_app.
      * split; [exact B|]. intros Hin. apply in_map_iff in Hin as (x & Hx & Hin). rewrite Forall_forall in A. destruct (A _ Hin) as (Hlt & _). lia.
  - apply fine_filter. split; assumption.
Qed.
Lemma moved_user u d e : p_paint (moved (with_user u d) e) = p_paint (moved d e) /\ p_loaded (moved (with_user u d) e) = p_loaded (moved d e) /\
  p_count (moved (with_user u d) e) = p_count (moved d e) /\ p_user (moved (with_user u d) e) = u /\ p_spot (moved (with_user u d) e) = match e with Go s => s | _ => p_spot d end.
Proof. destruct e; repeat split. Qed.
Lemma painted_moved d e : painted (moved d e) = match e with Paint on => on | _ => painted d end.
Proof. destruct e; reflexivity. Qed.
Lemma color_pcol tr : pm_color tr = fold_left pcol tr false.
Proof. reflexivity. Qed.
Lemma help_plugs l count : fine_list count l -> flat_map help_line (map plug l) =
  concat (map (fun x => lit " - " ++ snd x ++ nl ++ tab ++ lit "Enter the " ++ snd x ++ lit " plugin menu" ++ nl) l).
Proof.
  intros (H & _). induction H as [|[n p] l (_ & Hp) _ IH]; [reflexivity|]. cbn [map flat_map concat]. rewrite IH. f_equal. cbn [snd] in *.
  destruct Hp as [-> | ->]; [rewrite plug_arith|rewrite plug_strings]; vm_compute; reflexivity.
Qed.
Lemma stands_spot d : stands d -> p_spot d = Home \/ exists x, p_spot d = Within (fst x) /\ In x (p_loaded d).
Proof.
  unfold stands. destruct (p_spot d) as [|n]; [auto|]. intros H. right. apply in_map_iff in H as (x & <- & Hx). exists x. auto.
Qed.
Lemma like_located d w : like d w -> exists cx, locate (w_cur w) [] (w_root w) = Some cx /\
  exists text name id enn ds ks anc, cx = CMenu id enn true ds name ks :: anc /\ sign d name /\ help_at d text /\ main_help cx = text.
Proof.
  intros ((Hr & _ & _ & Hfine) & Hc & _ & _ & _ & Hst & _). rewrite Hr, Hc. destruct (stands_spot d Hst) as [Hs|(x & Hs & Hx)].
  - rewrite Hs. eexists. split; [reflexivity|]. do 7 eexists. split; [reflexivity|]. split; [apply sign_home, Hs|]. split; [apply help_home, Hs|].
    cbn [main_help cmd_en cmd_kids negb]. rewrite flat_map_app, (help_plugs _ _ Hfine), app_nil_r. unfold home_help. rewrite !app_assoc. f_equal.
    destruct (p_paint d) as [[]|]; vm_compute; reflexivity.
  - rewrite Hs. cbn [where_]. rewrite (tree_locate _ _ _ _ Hfine). destruct x as [n p]. cbn [fst] in *. pose proof Hfine as (Hk & Hd). rewrite (find_in _ _ _ Hd Hx).
    eexists. split; [reflexivity|]. rewrite Forall_forall in Hk. destruct (Hk _ Hx) as (_ & [Hp|Hp]); cbn [snd] in Hp; subst p.
    + rewrite plug_arith. do 7 eexists. split; [reflexivity|]. split; [eapply sign_in; [exact Hs|exact Hx]|]. split; [eapply help_in; [exact Hs|exact Hx]|]. vm_compute. reflexivity.
    + rewrite plug_strings. do 7 eexists. split; [reflexivity|]. split; [eapply sign_in; [exact Hs|exact Hx]|]. split; [eapply help_in; [exact Hs|exact Hx]|]. vm_compute. reflexivity.
Qed.

(** A line that changes nothing but what is remembered, and prints [text]. *)
Lemma like_after d u text w : like d w -> fine_user u ->
  like (with_user u d) (mkWorld (w_root w) (w_next w) (w_store w) (w_sid w) (w_cur w) (hist_of size u) false (w_trace w ++ [EvOut (w_sid w) text])).
Proof.
  intros ((Hr & Hn & Hs & Hf) & Hc & _ & Hcol & Hx & Hst & _) Hu. split; [|split; [|split; [|split; [|split; [|split]]]]]; cbn [w_cur w_hist w_trace w_exit].
  - split; [exact Hr|]. split; [exact Hn|]. split; [|exact Hf]. eapply stock_app; [exact Hs|]. intros pend. exists pend. destruct pend; reflexivity.
  - exact Hc.
  - reflexivity.
  - rewrite color_pcol, fold_left_app. exact Hcol.
  - reflexivity.
  - exact Hst.
  - exact Hu.
Qed.
Lemma said d line w text u : like d w -> fine_user u -> answers regs d line (Reply text (with_user u d) false) ->
  lined d line w (FOk (out text (set_hist (hist_of size u) w))).
Proof.
  intros Hl Hu Ha. exists (Reply text (with_user u d) false). split; [exact Ha|]. do 2 eexists. split; [reflexivity|]. cbn [out log set_hist w_trace w_exit w_sid].
  split; [reflexivity|]. split; [reflexivity|]. split; [apply Hl|]. split; [cbn; rewrite app_nil_r; reflexivity|].
  pose proof (like_after d u text w Hl Hu) as H. pose proof Hl as (_ & _ & _ & _ & Hx & _). unfold out, log, set_hist. cbn. rewrite Hx. exact H.
Qed.
Lemma plain_line rec d line w : like d w -> readable P line -> ~ recalls line -> lined d line w (feed_body E rec line w).
Proof.
  intros Hl Hread Hrec. pose proof Hl as (Hf & Hcur & Hhist & Hcol & Hexit & Hst & Hok). pose proof Hf as (Hroot & Hnext & Hstock & Hfine). unfold feed_body.
  destruct (split line) as [ws|] eqn:Hs; [|destruct (split_safe line) as (? & H & _); congruence].
  pose proof (proj2 (words_split _ _) Hs) as Hw.
  destruct ws as [|t rest].
  { exists (Reply [] d false). split; [apply a_blank, Hw|]. exists w, []. rewrite app_nil_r. split; [reflexivity|]. split; [reflexivity|]. split; [reflexivity|]. split; [exact Hexit|]. split; [reflexivity|exact Hl]. }
  rewrite Hhist, new_keeps by lia. set (u1 := keeps size line (p_user d)). set (w1 := set_hist (hist_of size u1) w).
  assert (Hok1 : fine_user u1) by (apply keeps_fine; assumption).
  assert (Hf1 : fits_in d w1) by exact Hf.
  assert (Hws : Forall (readable P) (t :: rest)) by (apply (legible_words E line); [exact Hread|exact Hs]).
  assert (Hnr : ~ is_recall (t :: rest)) by (intros H; apply Hrec; exists (t :: rest); split; [exact Hw|exact H]).
  destruct (like_located d w Hl) as (cx & Hloc & text & name & id & enn & ds & ks & anc & Hcx & Hsign & Hhelp & Hmain).
  assert (Hmenus : t :: rest <> [lit "help"] -> t :: rest <> [lit "exit"] -> t :: rest <> [lit "history"] ->
    scan E (builtin E rec) (t :: rest) [global_menu] w1 = EDone false w1 ->
    lined d line w (match dispatch E (builtin E rec) (t :: rest) line w1 with
          | EDone _ w' => FOk w'
          | EExc (XBadCast what) w' | EExc (XStd what) w' => hres_fres (std_exception E line what w')
          | EExc XOther w' => FOk (out (lit "Cli. Unknown exception caught handling command line """ ++ line ++ lit """" ++ nl) w')
          | EUB => FUB
          | EFuel => FFuel
          end)).
  { intros H1 H2 H3 Hg. unfold dispatch. rewrite Hg. cbn [e_bind].
    assert (Hscan : exists cx', locate (w_cur w1) [] (w_root w1) = Some cx' /\ outcome d (p_spot d) (t :: rest) w1 (scan E no_builtin (t :: rest) cx' w1)).
    { destruct (stands_spot d Hst) as [Hspot|(x & Hspot & Hx)].
      - apply (spot_scan no_builtin d (t :: rest) w1 (0, [])); [discriminate|exact Hws|exact Hf1|exact Hcur|left; exact Hspot].
      - apply (spot_scan no_builtin d (t :: rest) w1 x); [discriminate|exact Hws|exact Hf1|exact Hcur|right; auto]. }
    destruct Hscan as (cx' & -> & Hout). destruct Hout as [(e & He & Hp)|(Hno & ->)].
    - assert (Hund : e = Undefined \/ e <> Undefined) by (destruct e; [right; discriminate..|left; reflexivity]). destruct Hund as [->|Hund].
      + exists Broken. split; [eapply a_undefined; eassumption|]. right. destruct Hp as (w' & evs & -> & Ht & Hu). exists w', evs. cbn [e_bind]. split; [reflexivity|]. split; [exact Ht|]. left. exact Hu.
      + pose proof (moved_user u1 d e) as (M1 & M2 & M3 & M4 & M5).
        assert (Hp' : exists evs, scan E no_builtin (t :: rest) cx' w1 = EDone true (mkWorld (tree (p_paint (moved d e)) (p_loaded (moved d e))) (mid (p_count (moved d e))) (w_store w) (w_sid w)
             (where_ (p_spot (moved (with_user u1 d) e))) (hist_of size u1) false (w_trace w ++ evs)) /\
          existsb (pm_undefined P) evs = false /\ pm_text evs = heard d e /\
          stock (w_trace w ++ evs) (p_loaded (moved d e)) /\ (forall b, fold_left pcol evs b = match e with Paint on => on | _ => b end)).
        { rewrite M5. destruct e; try congruence; destruct Hp as (evs & -> & B1 & B2 & _ & B3 & B4); exists evs;
            (split; [cbn [w_cur w_hist w_exit w_trace w_store w_sid w1 set_hist]; rewrite ?Hcur, Hexit; reflexivity|auto]). }
        destruct Hp' as (evs & -> & B1 & B2 & B3 & B4). cbn [e_bind].
        pose proof (moved_fine d e Hfine (deeds_load _ _ _ _ He)) as Hfine'.
        assert (Hdec : stands (moved (with_user u1 d) e) \/ ~ stands (moved (with_user u1 d) e)).
        { unfold stands. destruct (p_spot (moved (with_user u1 d) e)) as [|n]; [left; exact Logic.I|]. destruct (in_dec Nat.eq_dec n (map fst (p_loaded (moved (with_user u1 d) e)))); auto. }
        destruct Hdec as [Hd|Hd].
        * exists (Reply (heard d e) (moved (with_user u1 d) e) false). split; [eapply a_deed; eassumption|]. do 2 eexists. split; [reflexivity|]. cbn [w_trace w_exit].
          split; [reflexivity|]. split; [exact B1|]. split; [reflexivity|]. split; [symmetry; exact B2|].
          split; [|split; [|split; [|split; [|split; [|split]]]]]; cbn [w_cur w_hist w_trace w_exit].
          -- split; [cbn [w_root]; rewrite M1, M2; reflexivity|]. split; [cbn [w_next]; rewrite M3; reflexivity|]. cbn [w_trace]. rewrite M2, M3. split; [exact B3|exact Hfine'].
          -- reflexivity.
          -- rewrite M4. reflexivity.
          -- rewrite color_pcol, fold_left_app, <- color_pcol, Hcol, B4, painted_moved. destruct e; reflexivity.
          -- reflexivity.
          -- exact Hd.
          -- rewrite M4. exact Hok1.
        * exists Broken. split; [eapply a_lost; eassumption|]. right. do 2 eexists. split; [reflexivity|]. cbn [w_trace w_exit w_cur w_root]. split; [reflexivity|]. right.
          split; [exact B1|]. split; [reflexivity|]. unfold stands in Hd. destruct (p_spot (moved (with_user u1 d) e)) as [|n]; [exfalso; apply Hd; exact Logic.I|].
          cbn [where_]. rewrite (tree_locate _ _ _ _ Hfine'), find_not; [reflexivity|]. rewrite <- M2. exact Hd.
    - cbn [e_bind]. unfold wrong_command. cbn [e_has pm_env]. apply said; [exact Hl|exact Hok1|].
      apply (a_wrong regs d line (t :: rest)); try assumption. discriminate. }
  pose proof (global_any E rec t rest w1) as Hg.
  destruct (str_eqb (lit "help") t) eqn:E1; [apply str_eqb_eq in E1; subst t; destruct rest as [|r rest]|].
  { unfold dispatch. rewrite Hg. cbn [run_fn builtin]. unfold help_text.
    change (w_cur w1) with (w_cur w). change (w_root w1) with (w_root w). rewrite Hloc, Hmain. cbn [e_bind].
    replace (lit "Commands available:" ++ nl ++ main_help [global_menu] ++ text) with (global_help ++ text) by (rewrite !app_assoc; f_equal; vm_compute; reflexivity).
    apply said; [exact Hl|exact Hok1|]. apply a_help; assumption. }
  { apply Hmenus; try discriminate. exact Hg. }
  destruct (str_eqb (lit "exit") t) eqn:E2; [apply str_eqb_eq in E2; subst t; destruct rest as [|r rest]|].
  { unfold dispatch. rewrite Hg. cbn [run_fn builtin]. unfold session_exit. cbn [e_has pm_env].
    rewrite (hook_says KSesExit [lit "Closing App..." ++ nl]) by reflexivity. cbn [h_bind].
    rewrite (hook_says KCliExit [fish]) by reflexivity. cbn [h_bind]. unfold made at 1. cbn [w_hist w1 set_hist made]. rewrite commands_hist. cbn [e_bind].
    eexists. split; [apply a_exit, Hw|]. fold u1. do 2 eexists. split; [reflexivity|]. cbn [set_exit set_store made w_trace w_exit w1 set_hist w_sid]. rewrite <- app_assoc.
    split; [reflexivity|]. split; [reflexivity|]. split; [reflexivity|]. split; [cbn [outs app pm_text flat_map]; rewrite <- !app_assoc; reflexivity|].
    eapply stock_app; [exact Hstock|]. intros pend. exists pend. destruct pend; reflexivity. }
  { apply Hmenus; try discriminate. exact Hg. }
  destruct (str_eqb (lit "history") t) eqn:E3; [apply str_eqb_eq in E3; subst t; destruct rest as [|r rest]|].
  { unfold dispatch. rewrite Hg. cbn [run_fn builtin]. change (w_hist w1) with (hist_of size u1).
    rewrite show_spec by apply Hok1. rewrite view_hist. cbn [e_bind]. apply said; [exact Hl|exact Hok1|]. apply a_history, Hw. }
  { apply Hmenus; try discriminate. exact Hg. }
  assert (Hneq : forall a, str_eqb a t = false -> t <> a) by (intros a H ->; rewrite str_eqb_refl in H; discriminate).
  assert (Hrest : scan E (builtin E rec) (t :: rest) [global_menu] w1 = EDone false w1).
  { destruct (str_eqb (lit "!") t) eqn:E4; [apply str_eqb_eq in E4; subst t|exact Hg].
    destruct rest as [|x [|x' rest]]; [exact Hg| |exact Hg].
    inversion Hws as [|? ? _ Hws']; subst. inversion Hws' as [|? ? Hx _]; subst.
    destruct (int_types P UInt x Hx (or_introl Hstrict)) as (Hi & Hub). cbn [e_plat pm_env] in Hg.
    destruct (int_from_string P UInt x) as [v| |] eqn:Hc; [|exact Hg|congruence].
    exfalso. apply Hnr. exists x, v. split; [reflexivity|]. apply Hi. reflexivity. }
  apply Hmenus; [intros H; apply (f_equal (hd [])) in H; cbn [hd] in H; revert H; apply Hneq; assumption..|exact Hrest].
Qed.
Lemma recall_line rec d line w : like d w -> readable P line -> recalls line ->
  (forall d2 l w2, like d2 w2 -> readable P l -> ~ recalls l -> lined d2 l w2 (rec l w2)) ->
  lined d line w (feed_body E rec line w).
Proof.
  intros Hl Hread (ws & Hw & Hrec) Hind. pose proof Hl as (Hf & Hcur & Hhist & Hcol & Hexit & Hst & Hok). unfold feed_body.
  rewrite (proj1 (words_split _ _) Hw). destruct Hrec as (x & v & -> & Hv).
  rewrite Hhist, new_keeps by lia. set (u1 := keeps size line (p_user d)). set (w1 := set_hist (hist_of size u1) w).
  assert (Hws : Forall (readable P) [lit "!"; x]) by (apply (legible_words E line); [exact Hread|apply words_split, Hw]).
  inversion Hws as [|? ? _ Hws']; subst. inversion Hws' as [|? ? Hx _]; subst.
  destruct (int_types P UInt x Hx (or_introl Hstrict)) as (Hi & _). pose proof (proj2 (Hi v) Hv) as Hc.
  pose proof (forgets_fine line (p_user d) Hok) as Hok2. set (u2 := forgets size line (p_user d)) in *.
  assert (Hv0 : (0 <= v < 2 ^ 64)%Z) by (destruct Hv as (_ & Hv); cbn in Hv; lia).
  unfold dispatch. rewrite (global_any E rec (lit "!") [x] w1). change (str_eqb (lit "help") (lit "!")) with false.
  change (str_eqb (lit "exit") (lit "!")) with false. change (str_eqb (lit "history") (lit "!")) with false. rewrite str_eqb_refl. cbn iota. cbn [e_plat pm_env]. rewrite Hc.
  cbn [run_fn builtin]. change (w_hist w1) with (hist_of size u1). unfold u1. rewrite forget_keeps. fold u2.
  change (set_hist (hist_of size u2) w1) with (set_hist (hist_of size u2) w). set (w2 := set_hist (hist_of size u2) w).
  assert (Hl2 : like (with_user u2 d) w2) by (split; [exact Hf|split; [exact Hcur|split; [reflexivity|split; [exact Hcol|split; [exact Hexit|split; [exact Hst|exact Hok2]]]]]]).
  assert (Hcases : (u_lines u2 = [] /\ u_first u2 = 0%Z) \/ ~ (u_lines u2 = [] /\ u_first u2 = 0%Z)).
  { destruct (u_lines u2); [|right; intros (? & _); discriminate]. destruct (Z.eq_dec (u_first u2) 0); [left; auto|right; intros (_ & ?); contradiction]. }
  destruct Hcases as [Hz|Hnz].
  { pose proof Hz as (Z1 & Z2). rewrite at_id_ub; [|exact Hv0|exact Z2|unfold hist_of; cbn [h_buf]; rewrite Z1; reflexivity].
    exists Broken. split; [apply (a_recall_first _ _ _ [lit "!"; x]); [exact Hw|exists x, v; auto|apply Hz|apply Hz]|]. left. reflexivity. }
  assert (Hin : (exists l, In (v, l) (remembered u2)) \/ forall l, ~ In (v, l) (remembered u2)).
  { unfold remembered. destruct (Z_le_dec (u_first u2) v); [|right; intros l H; apply number_in in H; lia].
    destruct (nth_error (u_lines u2) (Z.to_nat (v - u_first u2))) as [l'|] eqn:En.
    - left. exists l'. apply number_in. auto.
    - right. intros l' H. apply number_in in H as (_ & H). congruence. }
  destruct Hin as [(l & Hin)|Hno].
  - rewrite (at_id_found _ _ l); [|apply Hok2|rewrite view_hist; exact Hin].
    assert (Hgood : readable P l /\ ~ recalls l).
    { destruct Hok2 as (_ & _ & Hg). rewrite Forall_forall in Hg. apply Hg. unfold remembered in Hin. apply number_in in Hin as (_ & Hin). eapply nth_error_In, Hin. }
    destruct Hgood as (G1 & G2). destruct (Hind (with_user u2 d) l w2 Hl2 G1 G2) as (rep & Hans & Hrep).
    exists rep. split; [eapply a_recall; [exact Hw|exact Hv|exact Hin|exact Hans]|].
    destruct rep as [text d' lf|].
    + destruct Hrep as (w' & evs & -> & A). exists w', evs. split; [reflexivity|exact A].
    + destruct Hrep as [->|(w' & evs & -> & A)]; [left; reflexivity|]. right. exists w', evs. split; [reflexivity|exact A].
  - rewrite at_id_missing; [|apply Hv0|apply Hok2| |rewrite view_hist; exact Hno].
    2: { unfold next_id, hist_of. cbn [h_oldest h_buf]. rewrite rev_length. destruct Hok2 as (_ & Hg & _).
         destruct (u_lines u2) as [|y l] eqn:El; [|cbn [length]; lia]. destruct (Z.eq_dec (u_first u2) 0); [|cbn [length]; lia]. exfalso. apply Hnz. auto. }
    cbn [out_of_range e_bind]. unfold std_exception. cbn [e_has pm_env hres_fres]. apply said; [exact Hl|exact Hok2|].
    eapply a_recall_none; [exact Hw|exact Hv|exact Hnz|exact Hno].
Qed.
Lemma any_line fuel d line w : like d w -> readable P line -> lined d line w (feed E (S (S fuel)) line w).
Proof.
  intros Hl Hr. change (feed E (S (S fuel)) line w) with (feed_body E (feed E (S fuel)) line w).
  destruct (recalls_dec P (fun _ => None) (fun _ => []) Hstrict (fun _ _ _ _ => mkURes [] UReturn) (fun _ => true) line Hr) as [H|H].
  - apply recall_line; [assumption..|]. intros d2 l w2 H1 H2 H3. apply plain_line; assumption.
  - apply plain_line; assumption.
Qed.

(** ** The program *)
Lemma like_prompt d w tty codes : like d w -> exists p, shows tty codes d p /\ prompt tty (pm_color (w_trace w)) codes w = Some (p, painted d || codes).
Proof.
  intros Hl. destruct (like_located d w Hl) as (cx & Hloc & text & name & id & enn & ds & ks & anc & -> & Hsign & _). destruct Hl as (_ & _ & _ & Hcol & Hx & _).
  eexists. split; [exists name; split; [exact Hsign|reflexivity]|]. unfold prompt, prompt_text. rewrite Hx, Hloc, Hcol.
  destruct (painted d), codes, tty; cbn [before_prompt after_prompt orb app]; try reflexivity; unfold before_prompt, after_prompt; cbn; rewrite <- ?app_assoc; reflexivity.
Qed.
Lemma opened_like : like opened (pm_open).
Proof.
  split; [|split; [reflexivity|split; [reflexivity|split; [reflexivity|split; [reflexivity|split; [exact Logic.I|]]]]]].
  - split; [reflexivity|]. split; [reflexivity|]. split; [exists None; reflexivity|]. split; [constructor|constructor].
  - split; [cbn; lia|]. split; [cbn; lia|]. constructor.
Qed.
Definition finished (f : finish) (r : pres) : Prop :=
  match f with
  | Stays d => exists w codes, r = PGo w codes /\ like d w
  | Left => r = PDone
  | Undef => r = PUB
  end.
Lemma parts_loaded tr l : stock tr l -> concat (map (fun x => pm_part (fst x)) (pm_loaded tr)) = concat (map part (map snd l)).
Proof. intros (pend & H). unfold pm_loaded. rewrite H. cbn [snd]. rewrite !map_map. reflexivity. Qed.
Lemma skip_trace {A} (a b : list A) : skipn (length a) (a ++ b) = b.
Proof. rewrite skipn_app, skipn_all, Nat.sub_diag. reflexivity. Qed.
Lemma lines_talk tty fuel ls : Forall (readable P) ls -> forall d w codes, like d w ->
  exists l f, talk regs tty codes d ls l f /\ exists r, pm_lines P ar tty (S (S fuel)) ls (PGo w codes) = (l, r) /\ finished f r.
Proof.
  induction 1 as [|line ls Hline _ IH]; intros d w codes Hl.
  - exists [], (Stays d). split; [constructor|]. exists (PGo w codes). split; [reflexivity|]. exists w, codes. auto.
  - cbn [pm_lines]. unfold pm_line. destruct (any_line fuel d line w Hl Hline) as (rep & Hans & Hrep).
    assert (Hstop : forall r, match r with PGo _ _ => False | _ => True end -> pm_lines P ar tty (S (S fuel)) ls r = ([], r)) by (intros r Hr; destruct ls, r; try contradiction; reflexivity).
    destruct rep as [text d' lf|].
    + destruct Hrep as (w' & evs & -> & Ht & Hu & Hx & Hrest). rewrite Ht, skip_trace, Hu, Hx. destruct lf.
      * destruct Hrest as (-> & Hs). rewrite <- Ht, (parts_loaded _ _ Hs), Hstop by exact Logic.I. do 2 eexists. split; [eapply t_exit, Hans|]. eexists. split; [reflexivity|reflexivity].
      * destruct Hrest as (-> & Hl'). unfold pm_prompt. destruct (like_prompt d' w' tty codes Hl') as (p & Hp & ->).
        destruct (IH d' w' (painted d' || codes) Hl') as (l & f & Htalk & r & Hr & Hfin). rewrite Hr.
        do 2 eexists. split; [eapply t_line; eassumption|]. exists r. split; [reflexivity|exact Hfin].
    + exists [[]], Undef. split; [apply t_broken, Hans|]. exists PUB. split; [|reflexivity].
      destruct Hrep as [->|(w' & evs & -> & Ht & Hu)]; [rewrite Hstop by exact Logic.I; reflexivity|]. rewrite Ht, skip_trace.
      destruct Hu as [->|(-> & Hx & Hloc)]; [rewrite Hstop by exact Logic.I; reflexivity|]. rewrite Hx. unfold pm_prompt, prompt, prompt_text.
      rewrite Hx, Hloc, Hstop by exact Logic.I. reflexivity.
Qed.
Definition first_prompt (tty : bool) : str := lit "cli" ++ (if tty then esc "0" else []) ++ lit "> ".
Lemma main_talk tty fuel ls : Forall (readable P) ls ->
  exists l f, talk regs tty false opened ls l f /\ exists r, pm_main P ar tty (S (S fuel)) ls = (first_prompt tty :: l, r) /\ finished f r.
Proof.
  intros H. unfold pm_main, pm_prompt. destruct (lines_talk tty fuel ls H opened pm_open false opened_like) as (l & f & Htalk & r & Hr & Hfin).
  destruct (like_prompt opened pm_open tty false opened_like) as (p & Hp & Hpr).
  assert (prompt tty (pm_color (w_trace pm_open)) false pm_open = Some (first_prompt tty, false)) as -> by (destruct tty; vm_compute; reflexivity).
  cbn [app]. rewrite Hr. exists l, f. split; [exact Htalk|]. exists r. auto.
Qed.
End Plugin.

(** ** What can be printed is determined *)
Section Talks.
Context (registered : list str).
Definition sound (d : shop) : Prop := fine_list (p_count d) (p_loaded d).
Lemma sound_names d : sound d -> names_ok d.
Proof. intros (A & B). split; [|exact B]. eapply Forall_impl; [|exact A]. intros x (_ & H). exact H. Qed.
Lemma load_known d p ws e : deeds registered d p ws e -> forall q, e = Load q -> known q.
Proof. induction 1; intros q0 Hz; try discriminate; [injection Hz as <-; assumption|]. apply IHdeeds, Hz. Qed.
Lemma answers_sound d line r : answers registered d line r -> sound d -> forall text d' lf, r = Reply text d' lf -> sound d'.
Proof.
  induction 1; intros Hs ? ? ? Hr; try discriminate; try (injection Hr as <- <- <-; exact Hs).
  - apply (IHanswers Hs _ _ _ Hr).
  - injection Hr as <- <- <-. pose proof (moved_user (keeps 200 line (p_user d)) d e) as (_ & M2 & M3 & _). unfold sound. rewrite M2, M3.
    apply moved_fine; [exact Hs|]. eapply load_known. eassumption.
Qed.
Lemma help_unique d a b : sound d -> help_at d a -> help_at d b -> a = b.
Proof.
  intros Hs Ha Hb. destruct Ha as [A|n p A B], Hb as [A'|n' p' A' B']; try congruence. assert (n' = n) by congruence. subst n'.
  rewrite (inside_unique d n p p' (sound_names _ Hs) B B'). reflexivity.
Qed.
Lemma sign_unique d a b : sound d -> sign d a -> sign d b -> a = b.
Proof.
  intros Hs Ha Hb. destruct Ha as [A|n p A B], Hb as [A'|n' p' A' B']; try congruence. assert (n' = n) by congruence. subst n'.
  exact (inside_unique d n p p' (sound_names _ Hs) B B').
Qed.
Lemma answers_unique d line r : answers registered d line r -> sound d -> forall r', answers registered d line r' -> r = r'.
Proof.
  assert (Hrec : forall s v, int_text UInt s v -> is_recall [lit "!"; s]) by (intros s v H; exists s, v; auto).
  assert (Hr0 : ~ is_recall [] /\ ~ is_recall [lit "help"] /\ ~ is_recall [lit "exit"] /\ ~ is_recall [lit "history"])
    by (repeat split; intros (? & ? & H & _); discriminate).
  destruct Hr0 as (R0 & R1 & R2 & R3).
  intros H. induction H as [d line Hw|d line text Hw Hh|d line Hw|d line Hw|d line ws Hw Hr Hl Hf|d line s v Hw Hv Hn Hno|d line s v l r Hw Hv Hin Ha IH|d line ws e Hw He Hu Hst|d line ws e Hw He Hu Hst|d line ws Hw He|d line ws Hw N0 N1 N2 N3 N4 Hno];
    intros Hs r' H'; inversion H' as [Xw|text' Xw Xh|Xw|Xw|ws' Xw Xr Xl Xf|s' v' Xw Xv Xn Xno|s' v' l' r'' Xw Xv Xin Xa|ws' e' Xw Xe Xu Xst|ws' e' Xw Xe Xu Xst|ws' Xw Xe|ws' Xw M0 M1 M2 M3 M4 Xno]; subst;
    pose proof (words_unique _ _ _ Hw Xw) as Ew; try discriminate; try reflexivity;
    try (subst ws'; contradiction); try (subst ws; contradiction); try (exfalso; subst; auto; fail);
    try (exfalso; try subst ws; try subst ws'; match goal with H : deeds _ _ _ _ _ |- _ => apply (deeds_global registered _ _ _ _ (sound_names _ Hs)) in H as (A0 & A1 & A2 & A3 & A4) end; eauto; fail);
    try (exfalso; subst; match goal with H1 : deeds _ _ _ _ ?a, H2 : deeds _ _ _ _ ?b |- _ => assert_fails (constr_eq a b); pose proof (deeds_unique registered _ _ _ _ (sound_names _ Hs) H1 _ H2) as E; subst; contradiction end);
    try (exfalso; subst; match goal with H1 : forall e, ~ deeds _ _ _ _ e, H2 : deeds _ _ _ _ _ |- _ => exact (H1 _ H2) end);
    try (exfalso; subst; eauto; fail).
  - rewrite (help_unique d _ _ Hs Hh Xh). reflexivity.
  - exfalso. unfold remembered in Xin. rewrite Hl in Xin. destruct Xin.
  - exfalso. apply (f_equal (@tl _)) in Ew. injection Ew as <-. rewrite (int_text_unique _ _ _ _ Xv Hv) in Xin. exact (Hno _ Xin).
  - exfalso. unfold remembered in Hin. rewrite Xl in Hin. destruct Hin.
  - exfalso. apply (f_equal (@tl _)) in Ew. injection Ew as <-. rewrite (int_text_unique _ _ _ _ Hv Xv) in Hin. exact (Xno _ Hin).
  - apply (f_equal (@tl _)) in Ew. injection Ew as <-. rewrite (int_text_unique _ _ _ _ Xv Hv) in Xin. rewrite (remembered_unique _ _ _ _ Xin Hin) in Xa. apply IH; [exact Hs|exact Xa].
  - subst ws'. rewrite (deeds_unique registered _ _ _ _ (sound_names _ Hs) He _ Xe). reflexivity.
Qed.
Lemma shows_unique tty codes d a b : sound d -> shows tty codes d a -> shows tty codes d b -> a = b.
Proof. intros Hs (n & Hn & ->) (m & Hm & ->). rewrite (sign_unique d n m Hs Hn Hm). reflexivity. Qed.
Lemma talk_unique tty codes d ls l f : talk registered tty codes d ls l f -> sound d -> forall l' f', talk registered tty codes d ls l' f' -> l = l' /\ f = f'.
Proof.
  intros H. induction H as [codes d|codes d line ls text d' p l f Ha Hp Ht IH|codes d line ls text d' Ha|codes d line ls Ha]; intros Hs l' f' H';
    inversion H' as [|? ? ? ? text2 d2 p2 l2 f2 Xa Xp Xt|? ? ? ? text2 d2 Xa|? ? ? ? Xa]; subst; auto;
    pose proof (answers_unique _ _ _ Ha Hs _ Xa) as Er; try discriminate.
  - injection Er as <- <-. pose proof (answers_sound _ _ _ Ha Hs _ _ _ eq_refl) as Hs'. rewrite (shows_unique _ _ _ _ _ Hs' Hp Xp).
    destruct (IH Hs' _ _ Xt) as (-> & ->). auto.
  - injection Er as <- <-. auto.
Qed.
Lemma sound_opened : sound opened.
Proof. split; constructor. Qed.
(** When nothing undefined can happen. *)
Definition harmless (line : str) : Prop := forall ws, words line ws ->
  ~ is_recall ws /\ ~ In (lit "unload") ws /\ ~ In (lit "add") ws /\ ~ In (lit "sub") ws.
Lemma harm_words d p ws e : deeds registered d p ws e ->
  (e = Undefined -> In (lit "add") ws \/ In (lit "sub") ws) /\ (forall q, e = Unload q -> In (lit "unload") ws) /\
  (forall n, e = Go (Within n) -> In n (map fst (p_loaded d))).
Proof.
  induction 1 as [| | | | | | | | | | | | | | | |p w q Hw|p w q ws e Hw Hd (A & B & C)];
    try (split; [|split]; [intros X; try discriminate X; cbn; auto|intros ? X; try discriminate X; cbn; auto|intros ? X; discriminate X]).
  - split; [|split]; intros; try discriminate. match goal with H : Go _ = _ |- _ => injection H as -> end. inversion Hw as [l1 ? ? l2 Hl Hf| |]; subst.
    rewrite Hl, map_app. apply in_or_app. right. left. reflexivity.
  - split; [|split].
    + intros X. destruct (A X); [left|right]; right; assumption.
    + intros q0 X. right. exact (B q0 X).
    + exact C.
Qed.
Lemma harmless_answers d line r : answers registered d line r -> stands d -> harmless line -> match r with Reply _ d' _ => stands d' | Broken => False end.
Proof.
  intros Ha Hst Hh. destruct Ha as [Hw|text Hw Hp|Hw|Hw|ws Hw Hr Hl Hf|s v Hw Hv Hn Hno|s v l r Hw Hv Hin Ha|ws e Hw He Hu Hs|ws e Hw He Hu Hs|ws Hw He|ws Hw N0 N1 N2 N3 N4 Hno]; try exact Hst.
  - destruct (Hh _ Hw) as (H & _). contradiction.
  - destruct (Hh _ Hw) as (H & _). exfalso. apply H. exists s, v. auto.
  - exact Hs.
  - destruct (Hh _ Hw) as (_ & H & _ & _). destruct (harm_words _ _ _ _ He) as (_ & A & B). apply Hs. destruct e as [t|p|p|on|q|]; try exact Hst.
    + unfold stands in *. cbn [moved p_spot p_loaded with_user]. destruct (p_spot d); [exact Hst|]. rewrite map_app. apply in_or_app. left. exact Hst.
    + exfalso. apply H. exact (A _ eq_refl).
    + destruct q as [|n]; [exact Logic.I|]. exact (B n eq_refl).
  - destruct (Hh _ Hw) as (_ & _ & H1 & H2). destruct (harm_words _ _ _ _ He) as (A & _). destruct (A eq_refl); contradiction.
Qed.
Lemma harmless_talk tty codes d ls l f : talk registered tty codes d ls l f -> stands d -> Forall harmless ls -> f <> Undef.
Proof.
  induction 1 as [codes d|codes d line ls text d' p l f Ha Hp Ht IH|codes d line ls text d' Ha|codes d line ls Ha]; intros Hs Hh; try discriminate; inversion Hh as [|? ? H1 H2]; subst.
  - apply IH; [exact (harmless_answers _ _ _ Ha Hs H1)|exact H2].
  - destruct (harmless_answers _ _ _ Ha Hs H1).
Qed.
End Talks.

Lemma program_prints P ar tty fuel ls : strict P = false -> Forall (readable P) ls ->
  exists l f r, talk (pm_plugins ar) tty false opened ls l f /\ pm_main P ar tty (S (S fuel)) ls = (first_prompt tty :: l, r) /\
    match f with Stays _ => exists w codes, r = PGo w codes | Left => r = PDone | Undef => r = PUB end.
Proof.
  intros Hs Hr. destruct (main_talk P ar Hs tty fuel ls Hr) as (l & f & H & r & Hm & Hf). exists l, f, r. split; [exact H|]. split; [exact Hm|].
  destruct f; [|exact Hf..]. destruct Hf as (w & codes & -> & _). exists w, codes. reflexivity.
Qed.
Lemma program_unique registered tty ls l f l' f' : talk registered tty false opened ls l f -> talk registered tty false opened ls l' f' -> l = l' /\ f = f'.
Proof. intros H H'. exact (talk_unique registered tty false opened ls l f H sound_opened l' f' H'). Qed.
Lemma program_safe P ar tty fuel ls : strict P = false -> Forall (readable P) ls ->
  (forall line ws, In line ls -> words line ws -> ~ is_recall ws /\ ~ In (lit "unload") ws /\ ~ In (lit "add") ws /\ ~ In (lit "sub") ws) ->
  snd (pm_main P ar tty (S (S fuel)) ls) <> PUB.
Proof.
  intros Hs Hr Hh. destruct (program_prints P ar tty fuel ls Hs Hr) as (l & f & r & Ht & -> & Hf). cbn [snd].
  assert (Hn : f <> Undef).
  { eapply harmless_talk; [exact Ht|exact Logic.I|]. apply Forall_forall. intros line Hin ws Hw. exact (Hh line ws Hin Hw). }
  destruct f; [destruct Hf as (w & codes & ->); discriminate|rewrite Hf; discriminate|contradiction].
Qed.
