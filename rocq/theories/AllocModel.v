(** * Model of the history when memory runs out

    Source: /repo/include/cli/detail/history.h, class [History], and
    cli.h:361-366 [ExecFromHistory].  HistoryModel.v takes every allocation to
    succeed; here each place that allocates may throw [std::bad_alloc] instead.

    An allocation is a copy of a string or a new block of the deque.  That it
    may fail is given as a [bool]: [true], there is memory (or none is needed,
    as for short strings).  From the standard: [deque::emplace_front] and the
    assignment of a string have no effect when they throw; [pop_front],
    [pop_back] and comparisons never throw. *)

From Verif Require Import Base HistoryModel.

(** The operation returned, left by an exception, or is undefined; the first two
    with the state of the history from then on. *)
Inductive attempt := ADone (h : history) | AThrew (h : history) | AUB.

(** history.h:180-188 [Insert]: [emplace_front] comes first *)
Definition insert_m (ok : bool) (h : history) (item : str) : attempt :=
  if ok then ADone (insert h item) else AThrew h.

(** history.h:65 and 91 [buffer[i] = x] *)
Definition assign_m (ok : bool) (h : history) (i : nat) (x : str) : attempt :=
  match set_nth i x (h_buf h) with
  | None => AUB
  | Some b => if ok then ADone (with_buf h b) else AThrew h
  end.

(** history.h:55-73 [NewCommand].  The counter and [current] are changed before
    anything is allocated (lines 57-58), the mode after (line 72). *)
Definition new_command_m (ok : bool) (h : history) (item : str) : attempt :=
  let h1 := mkHistory (h_max h) (h_buf h) 0 (S (h_cmds h)) (h_browse h) (h_oldest h) in
  let result :=
    if h_browse h1 then
      match h_buf h1 with
      | _ :: ((y :: _) as b') =>
          if str_eqb y item then ADone (with_buf h1 b') else assign_m ok h1 (h_cur h1) item
      | _ => assign_m ok h1 (h_cur h1) item
      end
    else
      match h_buf h1 with
      | y :: _ => if str_eqb y item then ADone h1 else insert_m ok h1 item
      | [] => insert_m ok h1 item
      end in
  match result with
  | ADone h2 => ADone (mkHistory (h_max h2) (h_buf h2) (h_cur h2) (h_cmds h2) false (h_oldest h2))
  | r => r
  end.

(** The copy made by [return buffer[current]] (history.h:97 and 108). *)
Definition return_m (ok : bool) (h : history) : attempt :=
  match nth_error (h_buf h) (h_cur h) with
  | None => AUB
  | Some _ => if ok then ADone h else AThrew h
  end.

(** history.h:80-98 [Previous]: [ok] for storing the line, [ok'] for the result *)
Definition previous_m (ok ok' : bool) (h : history) (line : str) : attempt :=
  let r :=
    if h_browse h then
      match assign_m ok h (h_cur h) line with
      | ADone h1 =>
          let cur := if Nat.eqb (h_cur h1) (length (h_buf h1) - 1) then h_cur h1 else S (h_cur h1) in
          ADone (mkHistory (h_max h1) (h_buf h1) cur (h_cmds h1) (h_browse h1) (h_oldest h1))
      | r => r
      end
    else
      match insert_m ok h line with
      | ADone h1 =>
          let cur := if Nat.ltb 1 (length (h_buf h1)) then 1 else 0 in
          ADone (mkHistory (h_max h1) (h_buf h1) cur (h_cmds h1) true (h_oldest h1))
      | r => r
      end in
  match r with
  | ADone h1 => return_m ok' h1
  | r => r
  end.

(** history.h:101-109 [Next] *)
Definition next_m (ok : bool) (h : history) : attempt :=
  match h_buf h, h_cur h with
  | [], _ => ADone h
  | _, O => ADone h
  | b, S c => return_m ok (mkHistory (h_max h) b c (h_cmds h) (h_browse h) (h_oldest h))
  end.

(** history.h:125-129 [LoadCommands]: [ok n] for the command of index [n] *)
Fixpoint load_m (ok : nat -> bool) (h : history) (cmds : list str) : attempt :=
  match cmds with
  | [] => ADone h
  | c :: cmds' =>
      match insert_m (ok 0) h c with
      | ADone h1 => load_m (fun n => ok (S n)) h1 cmds'
      | r => r
      end
  end.

(** A line with ['!']: history.h:55 [NewCommand] for the line itself, then
    cli.h:361-366 [ExecFromHistory], where [ForgetLatest] removes the line before
    [At] copies the entry ([ok']; [At] itself is [at_id]).  Feeding the entry is
    another operation. *)
Definition bang_m (ok ok' : bool) (h : history) (s : str) : attempt :=
  match new_command_m ok h s with
  | ADone h1 =>
      match forget_latest h1 with
      | None => AUB
      | Some h2 => if ok' then ADone h2 else AThrew h2
      end
  | r => r
  end.
