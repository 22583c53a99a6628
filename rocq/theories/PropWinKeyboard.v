(** * C65: properties of the Windows keyboard *)

From Verif Require Import Base TerminalModel TelnetSpec WinKeyboardModel WinKeyboardSpec WinKeyboardProofs.
Open Scope nat_scope.
Open Scope list_scope.

(** C65: if keys are typed, whatever else happens, the keys found are the first of those,
    and all of them when the keyboard thread has nothing to do, *)
Theorem C65_keys : forall l s ts, h_run l wk_init = Some s -> Forall win_plain ts -> filter character (arrived_in l) = map win_rec ts ->
  (exists later, map key_of ts = win_found s ++ later) /\ (h_step HGo s = None -> wk_w s <> HDone -> wk_keys s = map key_of ts).
Proof. exact win_keys. Qed.
Print Assumptions C65_keys.
(** Whatever is typed, the keys found are the first of those that the characters say, in
    the two tables, and all of them when the keyboard thread has nothing to do, except
    the second half of an extended key whose first half was read as another key; *)
Theorem C65_reading : forall l s, h_run l wk_init = Some s ->
  (exists later, win_reading (win_chars (arrived_in l)) = win_found s ++ later) /\ (h_step HGo s = None -> wk_w s <> HDone -> win_reading (win_chars (arrived_in l)) = wk_keys s ++ win_reading (win_half s)).
Proof. exact win_any. Qed.
Print Assumptions C65_reading.
(** for example, Ctrl-C, Ctrl-Z and the page-up key, and a key of the numeric pad. *)
Example C65_reading_nonvacuous : exists l s, h_run l wk_init = Some s /\ arrived_in l = [RChar "003"; RChar "026"; RExt true "I"; ROther; RExt false "H"]%char /\
  h_step HGo s = None /\ wk_w s <> HDone /\ wk_keys s = [KEof; KEof; KIgnored; KAscii "000"]%char /\ win_half s = ["H"]%char.
Proof.
  exists (Arrive (RChar "003") :: Arrive (RChar "026") :: Arrive (RExt true "I") :: Arrive ROther :: Arrive (RExt false "H") :: repeat HGo 13). eexists.
  split; [vm_compute; reflexivity|]. split; [reflexivity|]. split; [vm_compute; reflexivity|]. split; [discriminate|]. split; reflexivity.
Qed.
Print Assumptions C65_reading_nonvacuous.
(** and when the destructor waits, at most four more steps of the keyboard thread are
    taken; and until the destructor has ended, either thread can go on, the keyboard
    thread or the destructor, unless the keyboard thread waits for a character. *)
Theorem C65_shutdown : forall l s l' s', h_run l wk_init = Some s -> wk_m s = DJoin -> h_run l' s = Some s' ->
  length (filter is_hgo l') <= 4 /\
  (wk_m s' = DGone \/ (exists s'', h_step HGo s' = Some s'') \/ (exists s'', h_step DGo s' = Some s'' /\ wk_m s'' = DGone) \/
   (win_getting (wk_w s') /\ filter character (wk_recs s') = [] /\ wk_crt s' = None)).
Proof. exact win_ends. Qed.
Print Assumptions C65_shutdown.

Definition win_demo : list typed := [TyChar "l"; TyUp; TyDelete; TyBackspace true; TyEnter true].
Example C65_nonvacuous : exists l s l1 s1 l' s', h_run l wk_init = Some s /\ Forall win_plain win_demo /\ filter character (arrived_in l) = map win_rec win_demo /\
  h_step HGo s = None /\ wk_w s <> HDone /\ wk_keys s = [KAscii "l"; KUp; KCanc; KBackspace; KRet]%char /\
  h_run (l ++ l1) wk_init = Some s1 /\ wk_m s1 = DJoin /\ h_run l' s1 = Some s' /\ wk_m s' = DGone /\ length (filter is_hgo l') = 4.
Proof.
  exists (Arrive (RChar "l") :: Arrive (RExt true "H") :: repeat HGo 6 ++ Arrive ROther :: map Arrive (map win_rec (skipn 2 win_demo)) ++ repeat HGo 11). eexists.
  exists [Arrive ROther; HGo; DGo; DGo]. eexists. exists (Arrive (RExt true "M") :: repeat HGo 4 ++ [DGo]). eexists.
  split; [vm_compute; reflexivity|]. split; [unfold win_demo; constructor; [vm_compute; intuition discriminate|repeat (constructor; [exact Logic.I|]); constructor]|].
  split; [vm_compute; reflexivity|]. split; [vm_compute; reflexivity|]. split; [discriminate|]. split; [reflexivity|]. split; [vm_compute; reflexivity|].
  split; [reflexivity|]. split; [vm_compute; reflexivity|]. split; reflexivity.
Qed.
Print Assumptions C65_nonvacuous.
(** The release of a key, the mouse or the focus suffice: the keyboard thread waits for a
    character, and the destructor does not end before a key is pressed. *)
Theorem C65_other_refuted : exists l s, h_run l wk_init = Some s /\ filter character (arrived_in l) = [] /\ wk_m s = DJoin /\
  forall l' s', (forall r, In (Arrive r) l' -> character r = false) -> h_run l' s = Some s' -> wk_m s' <> DGone.
Proof.
  exists [Arrive ROther; HGo; DGo; DGo]. eexists. split; [vm_compute; reflexivity|]. split; [reflexivity|]. split; [reflexivity|].
  intros l' s' Ha. apply win_stuck; [exact Ha|exact Logic.I|reflexivity|reflexivity|discriminate].
Qed.
Print Assumptions C65_other_refuted.
(** A function key types a zero, and then a character, but that only when another key is
    pressed, whose own key is then late too. *)
Theorem C65_function_refuted : exists l s s', h_run l wk_init = Some s /\ arrived_in l = [RExt false ";"%char] /\ h_step HGo s = None /\ wk_keys s = [KAscii "000"]%char /\
  h_run (Arrive (RChar "a") :: repeat HGo 3) s = Some s' /\ wk_keys s' = [KAscii "000"; KAscii ";"]%char.
Proof.
  exists (Arrive (RExt false ";") :: repeat HGo 3). eexists. eexists.
  split; [vm_compute; reflexivity|]. split; [reflexivity|]. split; [vm_compute; reflexivity|]. split; [reflexivity|]. split; [vm_compute; reflexivity|]. reflexivity.
Qed.
Print Assumptions C65_function_refuted.
(** The character 224 (an a with grave accent in Latin-1) swallows the next key. *)
Theorem C65_symbol_refuted : exists l s, h_run l wk_init = Some s /\ arrived_in l = [RChar "224"; RChar "b"]%char /\ h_step HGo s = None /\ wk_keys s = [KIgnored].
Proof.
  exists (Arrive (RChar "224") :: Arrive (RChar "b") :: repeat HGo 4). eexists. split; [vm_compute; reflexivity|]. split; [reflexivity|]. split; [vm_compute; reflexivity|]. reflexivity.
Qed.
Print Assumptions C65_symbol_refuted.
