(** * Model of the Windows keyboard: decoding, the keyboard thread, shutdown
    Source: /repo/include/cli/detail/winkeyboard.h.  The keyboard thread ([servant]) runs
    [Read]; another thread destroys the keyboard; the console receives input records.
    An execution is any list of actions.  Assumed of Windows: the console's handle is
    signalled while there are unread records of any kind; [_getch] consumes and skips the
    records that are no characters, returns a prefix (224 or 0) and then the code for
    extended keys, and blocks if there is nothing.  Failures
    ([WAIT_FAILED], [_getch] returning [EOF]): WinFailModel.v.  Not modelled: exceptions of
    [Post]. *)

From Verif Require Import Base TerminalModel.
Open Scope nat_scope.
Open Scope list_scope.

(** Console input records: a character; an extended key, with prefix 224 or 0; others
    (the release of a key, the mouse, the focus, the size of the window). *)
Inductive crec := RChar (c : ascii) | RExt (e0 : bool) (c : ascii) | ROther.

(** Where the keyboard thread is: in [WaitForMultipleObjects] (65), before the calls of
    [_getch] in 135 and 147, before [Notify] (122), finished; and the other thread: in
    other code, in the destructor (107-111) before [Stop] and in [join], after it. *)
Inductive hpc := HWait | HGet | HGet2 | HNotify (k : key) | HDone.
Inductive dpc := DUser | DStop | DJoin | DGone.
(** [wk_stop]: the stop event is set.  [wk_crt]: the code of an extended key whose prefix
    was returned by [_getch]. *)
Record wkbd := mkWk { wk_w : hpc; wk_m : dpc; wk_stop : bool; wk_recs : list crec; wk_crt : option ascii; wk_keys : list key }.
Definition wk_init : wkbd := mkWk HWait DUser false [] None [].

Fixpoint next_char (l : list crec) : option (crec * list crec) :=
  match l with [] => None | ROther :: l' => next_char l' | r :: l' => Some (r, l') end.
(** [_getch]: the result, the records left and the pending code; [None]: blocked. *)
Definition getch (s : wkbd) : option (ascii * list crec * option ascii) :=
  match wk_crt s with
  | Some c => Some (c, wk_recs s, None)
  | None =>
      match next_char (wk_recs s) with
      | Some (RChar c, l) => Some (c, l, None)
      | Some (RExt e0 c, l) => Some (if e0 then "224"%char else "000"%char, l, Some c)
      | _ => None
      end
  end.

(** winkeyboard.h:131-176 [Get], after each of its reads *)
Definition is_code (n : N) (c : ascii) : bool := N.eqb (byte_of c) n.
Definition wget (c : ascii) : hpc :=
  if is_code 4 c || is_code 26 c || is_code 3 c then HNotify KEof
  else if is_code 224 c then HGet2
  else if is_code 8 c then HNotify KBackspace
  else if is_code 12 c then HNotify KClear
  else if is_code 13 c then HNotify KRet
  else HNotify (KAscii c).
Definition wget2 (c : ascii) : hpc :=
  HNotify (if is_code 72 c then KUp else if is_code 80 c then KDown else if is_code 75 c then KLeft else if is_code 77 c then KRight
    else if is_code 71 c then KHome else if is_code 79 c then KEnd else if is_code 83 c then KCanc else KIgnored).

Definition get_then (f : ascii -> hpc) (s : wkbd) : option wkbd :=
  match getch s with Some (c, l, p) => Some (mkWk (f c) (wk_m s) (wk_stop s) l p (wk_keys s)) | None => None end.
(** winkeyboard.h:115-129 [Read] and 62-86 [WaitKbHit]: the stop event (reset by the
    wait) comes first. *)
Definition hw_step (s : wkbd) : option wkbd :=
  match wk_w s with
  | HWait =>
      if wk_stop s then Some (mkWk HDone (wk_m s) false (wk_recs s) (wk_crt s) (wk_keys s))
      else match wk_recs s with [] => None | _ => Some (mkWk HGet (wk_m s) false (wk_recs s) (wk_crt s) (wk_keys s)) end
  | HGet => get_then wget s
  | HGet2 => get_then wget2 s
  | HNotify k => Some (mkWk HWait (wk_m s) (wk_stop s) (wk_recs s) (wk_crt s) (wk_keys s ++ [k]))
  | HDone => None
  end.
(** winkeyboard.h:107-111 the destructor *)
Definition hm_step (s : wkbd) : option wkbd :=
  match wk_m s with
  | DUser => Some (mkWk (wk_w s) DStop (wk_stop s) (wk_recs s) (wk_crt s) (wk_keys s))
  | DStop => Some (mkWk (wk_w s) DJoin true (wk_recs s) (wk_crt s) (wk_keys s))
  | DJoin => match wk_w s with HDone => Some (mkWk (wk_w s) DGone (wk_stop s) (wk_recs s) (wk_crt s) (wk_keys s)) | _ => None end
  | DGone => None
  end.
(** What can happen: a step of the keyboard thread; the destructor is called or goes on;
    a record arrives. *)
Inductive hact := HGo | DGo | Arrive (r : crec).
Definition h_step (a : hact) (s : wkbd) : option wkbd :=
  match a with
  | HGo => hw_step s
  | DGo => hm_step s
  | Arrive r => Some (mkWk (wk_w s) (wk_m s) (wk_stop s) (wk_recs s ++ [r]) (wk_crt s) (wk_keys s))
  end.
Fixpoint h_run (l : list hact) (s : wkbd) : option wkbd :=
  match l with
  | [] => Some s
  | a :: l' => match h_step a s with Some s' => h_run l' s' | None => None end
  end.
