(** * Model of changing menus while a line is being processed
    Source: /repo/include/cli/cli.h:423-437, 482-518, 654-678, 777-796, 835-845, 912-941.

    SessionModel.v goes through the menus as they were when the line was looked up, and
    counts any change of a menu followed by an escaping [std::bad_cast] as undefined
    behaviour.  Here the loops are followed one by one: the enabled flags are read when
    [Exec] is called, and behaviour is undefined when a loop goes on after the vector it
    runs over was changed, or when a menu that was destroyed is used. *)

From Verif Require Import Base SplitModel FromStringModel HistoryModel StorageModel MenuModel SessionModel.
Open Scope nat_scope.
Open Scope list_scope.

(** The world, and the menus whose vector of commands was changed since the line was
    looked up, one entry for each change. *)
Record lworld := mkLive { l_w : world; l_changed : list nat }.
Inductive lres := LDone (found : bool) (s : lworld) | LExc (x : exn) (s : lworld) | LUB.
Definition l_bind (r : lres) (f : lworld -> lres) : lres :=
  match r with LDone false s => f s | _ => r end.

(** The menus holding the command [id]. *)
Fixpoint owners (id : nat) (c : cmd) : list nat :=
  match c with
  | CMenu i _ _ _ _ kids =>
      (if existsb (fun k => Nat.eqb (cmd_id k) id) kids then [i] else []) ++ flat_map (owners id) kids
  | _ => []
  end.
(** The vectors changed by an operation: cli.h:482-497 [push_back] of [Insert] (the
    past-the-end iterator of a loop gets invalid in any case), 423-437 [erase] of [Remove].
    [Enable] and [Disable] (413-422) leave the vectors alone. *)
Definition vectors (o : op) (w : world) : list nat :=
  match o with
  | OInsert pid _ => [pid]
  | ORemove id => owners id (w_root w)
  | _ => []
  end.
Definition l_op (s : lworld) (o : op) : lworld :=
  mkLive (apply_op (l_w s) o) (l_changed s ++ vectors o (l_w s)).
Definition l_ops (os : list op) (s : lworld) : lworld := fold_left l_op os s.

(** The menu [mid] with its ancestors, as it is now; [None]: it was destroyed. *)
Definition menu_now (mid : nat) (s : lworld) : option (list cmd) := locate mid [] (w_root (l_w s)).
(** How often the vector of [mid] was changed. *)
Definition version (mid : nat) (s : lworld) : nat := length (filter (Nat.eqb mid) (l_changed s)).
(** The iterators of a loop over [mid] that started at version [v] are valid. *)
Definition intact (mid v : nat) (s : lworld) : bool :=
  match menu_now mid s with Some _ => Nat.eqb (version mid s) v | None => false end.

Section Live.
Context (E : env).

(** Calling a user's function (SessionModel.v, [call_user]). *)
Definition l_call (n : nat) (args : list value) (s : lworld) : uend * lworld :=
  let w1 := log (EvCall (w_sid (l_w s)) n args) (l_w s) in
  let r := e_handler E (w_sid w1) n args (w_trace w1) in
  (ur_end r, l_ops (ur_ops r) (mkLive w1 (l_changed s))).

(** cli.h:777-796, 835-845: [Exec] of a function or free form command.  A function of the
    global menu (not the user's) is not in these menus. *)
Definition l_leaf (c : cmd) (toks : list str) (s : lworld) : lres :=
  match c with
  | CFn _ name en _ pars _ h =>
      if negb en then LDone false s
      else if negb (Nat.eqb (length toks) (length pars + 1)) then LDone false s
      else match toks with
           | [] => LUB
           | t :: args =>
               if str_eqb name t then
                 match convert_all E pars args with
                 | COk vs =>
                     match h with
                     | HUser n =>
                         match l_call n vs s with
                         | (UReturn, s') => LDone true s'
                         | (UThrow (XBadCast _), s') => LDone false s'
                         | (UThrow x, s') => LExc x s'
                         end
                     | _ => LUB
                     end
                 | CBad => LDone false s
                 | CUB => LUB
                 end
               else LDone false s
           end
  | CFree _ name en _ _ h =>
      if negb en then LDone false s
      else match toks with
           | [] => LUB
           | t :: args =>
               if str_eqb name t then
                 match h with
                 | HUser n =>
                     match l_call n [VList args] s with
                     | (UReturn, s') => LDone true s'
                     | (UThrow x, s') => LExc x s'
                     end
                 | _ => LUB
                 end
               else LDone false s
           end
  | CMenu _ _ _ _ _ _ => LDone false s
  end.

(** [for (auto& cmd: *cmds) if (cmd->Exec(...)) return true;] in the menu [mid]: [ks] are
    the commands still to come, [v] is the version of the vector at the start.  After a
    command that returns false the iterators are used again. *)
Fixpoint l_loop (f : cmd -> lworld -> lres) (mid v : nat) (ks : list nat) (s : lworld) : lres :=
  match ks with
  | [] => LDone false s
  | k :: ks' =>
      match menu_now mid s with
      | Some (m :: _) =>
          match find (fun c => Nat.eqb (cmd_id c) k) (cmd_kids m) with
          | Some c => l_bind (f c s) (fun s' => if intact mid v s' then l_loop f mid v ks' s' else LUB)
          | None => LUB
          end
      | _ => LUB
      end
  end.

(** cli.h:669-673, 513-517: the loop, and then the parent (read from the menu, so the
    menu must exist). *)
Definition l_scan (f : cmd -> lworld -> lres) (g : nat -> lworld -> lres) (mid : nat) (kids : list cmd) (s : lworld) : lres :=
  l_bind (l_loop f mid (version mid s) (map cmd_id kids) s) (fun s' =>
    match menu_now mid s' with
    | Some (_ :: p :: _) => g (cmd_id p) s'
    | Some _ => LDone false s'
    | None => LUB
    end).

(** cli.h:654-678 [HandleCommand] of the menu [mid] *)
Fixpoint l_handle (toks : list str) (up : bool) (mid : nat) (s : lworld) {struct toks} : lres :=
  match menu_now mid s with
  | Some (CMenu id name en _ _ kids :: _) =>
      if negb en then LDone false s
      else match toks with
           | [] => LUB
           | t :: rest =>
               if str_eqb name t || (up && str_eqb (lit "..") t) then
                 match rest with
                 | [] => LDone true (mkLive (set_cur id (l_w s)) (l_changed s))
                 | _ =>
                     l_scan
                       (fun k s1 =>
                          match k with
                          | CMenu kid _ _ _ _ _ => l_handle rest false kid s1
                          | _ => l_leaf k rest s1
                          end)
                       (fun p s1 => l_handle rest true p s1) mid kids s
                 end
               else LDone false s
           end
  | _ => LUB
  end.
Definition l_exec (toks : list str) (k : cmd) (s : lworld) : lres :=
  match k with CMenu kid _ _ _ _ _ => l_handle toks false kid s | _ => l_leaf k toks s end.

(** cli.h:509-518 [ScanCmds] of the current menu *)
Definition live_scan (toks : list str) (w : world) : lres :=
  let s := mkLive w [] in
  match menu_now (w_cur w) s with
  | Some (m :: _) =>
      if negb (cmd_en m) then LDone false s
      else l_scan (l_exec toks) (fun p s1 => l_handle toks true p s1) (w_cur w) (cmd_kids m) s
  | _ => LUB
  end.

(** cli.h:912-941 [Feed] with it.  The global menu never changes (SessionModel.v); a line
    recalled by [!] is processed while its loop is running, and the loops over the user's
    menus start afterwards. *)
Definition live_dispatch (bi : hid -> list value -> world -> hres) (toks : list str) (line : str) (w : world) : eres :=
  e_bind (scan E bi toks [global_menu] w) (fun w1 =>
  match live_scan toks w1 with
  | LDone true s => EDone true (l_w s)
  | LDone false s =>
      match wrong_command E line (l_w s) with
      | HOk w3 => EDone false w3
      | HExc x w3 => EExc x w3
      | HUB => EUB
      | HFuel => EFuel
      end
  | LExc x s => EExc x (l_w s)
  | LUB => EUB
  end).
Definition live_feed_body (rec : str -> world -> fres) (line : str) (w : world) : fres :=
  match split line with
  | None => FUB
  | Some [] => FOk w
  | Some toks =>
      match new_command (w_hist w) line with
      | None => FUB
      | Some h =>
          match live_dispatch (builtin E rec) toks line (set_hist h w) with
          | EDone _ w' => FOk w'
          | EExc (XBadCast what) w' | EExc (XStd what) w' => hres_fres (std_exception E line what w')
          | EExc XOther w' =>
              FOk (out (lit "Cli. Unknown exception caught handling command line """ ++ line
                        ++ lit """" ++ nl) w')
          | EUB => FUB
          | EFuel => FFuel
          end
      end
  end.
Fixpoint live_feed (fuel : nat) (line : str) (w : world) : fres :=
  match fuel with O => FFuel | S n => live_feed_body (live_feed n) line w end.
End Live.
